(** * C89: the JONSWAP spectrum in binary64.
    The densities returned are numbers, none negative; the Hm0 of the Spectrum made from them is the one asked for up to a few times
    the number of frequencies times 2^-53, as long as the axis reaches a quarter of the peak frequency.
    On an axis that stays below a fifth of the peak frequency every density computed underflows, and every density returned is NaN. *)

From Coq Require Import Reals ZArith String List Bool Lra Lia.
From Flocq Require Import Core.
From Verif Require Import SumOrder Num XR Engine Cpx SpectralModel WaveModel SpectrumModel SeriesModel Spec XRFacts TimeSpec EngineProps TimeProps
  FourierSpec FourierFacts SeriesProps SimpsonFacts MomentProps PeakProps RoundNum RoundProps RoundWave RoundSpec RoundChain RoundPeriod RoundAccuracy TanhFacts ExpBounds RoundDisper RoundMix.
Import ListNotations.
Open Scope R_scope.

Section AnyOrder.
Context {So : summation} {Lm : libm}.

(** ** One density *)
Lemma rnd_between lo hi r : is_float lo -> is_float hi -> lo <= r <= hi -> lo <= rnd r <= hi.
Proof. intros A B H. split; [apply rnd_ge_float|apply rnd_le_float]; auto; apply H. Qed.
Lemma float_pow2 e : (-1074 <= e)%Z -> is_float (bpow radix2 e). Proof. apply float_bpow. Qed.
Lemma rnd_near r : bpow radix2 (-1020) <= r -> r * (999 / 1000) <= rnd r <= r * (1001 / 1000).
Proof. intros H. destruct (rnd_rel r H) as [A B]. fold u53 in A, B. rewrite u53_val in A, B. assert (Z := b_pos (-1020)). lra. Qed.
Lemma big_1020 c : / 1000000 <= c -> bpow radix2 (-1020) <= c.
Proof. intros H. apply Rle_trans with (bpow radix2 (-20)); [apply bpow_le; lia|]. replace (bpow radix2 (-20)) with (/ 1048576) by (cbn; lra). lra. Qed.

Lemma nb_spacing : spacing1 (N:=NB) = Fin (1 / 2 ^ 52).
Proof.
  unfold spacing1, lit. rewrite !nb_ofZ by (cbn; lia). rewrite nb_div by (apply IZR_neq; discriminate). f_equal.
  assert (E : 1 / IZR (2 ^ 52) = bpow radix2 (-52)) by (cbn; lra). rewrite E, rnd_id by (apply float_pow2; lia). cbn. lra.
Qed.
Lemma pow_bounds r m lo hi : bpow radix2 (-100) <= lo -> lo <= r <= hi -> hi <= bpow radix2 100 -> (-5 <= m <= -1)%Z ->
  999 / 1000 * powerRZ hi m <= fpowi r m <= 1001 / 1000 * powerRZ lo m.
Proof.
  intros Hlo Hr Hhi Hm. assert (Z := b_pos (-100)).
  assert (A := fpowi_acc r m ltac:(lra) ltac:(lia)). apply Rabs_le_inv in A.
  assert (An : forall a b, 0 < a <= b -> powerRZ b m <= powerRZ a m).
  { clear - Hm. intros a b H. destruct m as [|p|p]; [cbn; lra|lia|]. cbn [powerRZ]. apply Rinv_le_contravar; [apply pow_lt; lra|]. apply pow_incr. lra. }
  assert (A1 := An r hi ltac:(lra)). assert (A2 := An lo r ltac:(lra)).
  assert (P := powerRZ_lt hi m ltac:(lra)). assert (P1 := powerRZ_lt r m ltac:(lra)). rewrite u53_val in A. lra.
Qed.
Lemma nb_C : exists C, jonswap_C (N:=NB) = Fin C /\ / 64 <= C <= 1.
Proof.
  assert (K : lit (N:=NB) 981 100 = Fin (rnd (981 / 100))).
  { unfold lit. rewrite !nb_ofZ by (cbn; lia). rewrite nb_div by lra. reflexivity. }
  assert (G := rnd_near (981 / 100) ltac:(apply big_1020; lra)). set (g := rnd (981 / 100)) in *. clearbody g.
  assert (G2 : 96 <= g * g <= 97) by nra. assert (G3 := rnd_between 96 97 (g * g) (float_Z 96 ltac:(cbn; lia)) (float_Z 97 ltac:(cbn; lia)) G2).
  assert (P1 : 2 <= PI <= 4) by (assert (T := PI_4); assert (T2 := PI2_1); lra).
  assert (P2 := rnd_between 2 4 PI (float_Z 2 ltac:(cbn; lia)) (float_Z 4 ltac:(cbn; lia)) P1).
  assert (P3 := rnd_between 4 8 (2 * rnd PI) (float_Z 4 ltac:(cbn; lia)) (float_Z 8 ltac:(cbn; lia)) ltac:(lra)).
  set (q := rnd (2 * rnd PI)) in *.
  assert (B1 : bpow radix2 (-100) <= 4) by (change 4 with (bpow radix2 2); apply bpow_le; lia). assert (B2 : 8 <= bpow radix2 100) by (change 8 with (bpow radix2 3); apply bpow_le; lia).
  assert (Q := pow_bounds q (-4) 4 8 B1 P3 B2 ltac:(lia)).
  assert (E4 : powerRZ 4 (-4) = / 256) by (change (/ (4 ^ 4) = / 256); f_equal; ring). assert (E8 : powerRZ 8 (-4) = / 4096) by (change (/ (8 ^ 4) = / 4096); f_equal; ring). rewrite E4, E8 in Q.
  unfold jonswap_C. rewrite K, nb_1, nb_mul, nb_mul. change (npi (n:=NB)) with (Fin (rnd PI)). rewrite nb_ofZ by (cbn; lia). rewrite nb_mul. fold q.
  destruct (nb_powi q (-4) ltac:(lra) ltac:(lra)) as [-> _]. rewrite nb_mul. eexists. split; [reflexivity|].
  rewrite Rmult_1_l, (rnd_id (rnd (g * g))) by apply rnd_float. set (g2 := rnd (g * g)) in *. clearbody g2. set (z := fpowi q (-4)) in *. clearbody z.
  apply rnd_between; [|apply float_1|].
  - replace (/ 64) with (bpow radix2 (-6)) by (cbn; lra). apply float_pow2. lia.
  - split; [apply Rle_trans with (96 * (999 / 1000 * / 4096)); [lra|apply Rmult_le_compat; lra]|apply Rle_trans with (97 * (1001 / 1000 * / 256)); [apply Rmult_le_compat; lra|lra]].
Qed.

Lemma Rpower_between g A : 0 < g -> 0 <= A <= 1 -> Rmin 1 g <= Rpower g A <= Rmax 1 g.
Proof.
  intros Hg HA. unfold Rpower. destruct (Rle_lt_dec 1 g) as [G|G].
  - rewrite Rmin_left, Rmax_right by lra. assert (L : 0 <= ln g) by (rewrite <- ln_1; destruct (Req_dec g 1) as [->|]; [lra|left; apply ln_increasing; lra]).
    split; [rewrite <- exp_0; apply exp_mono; apply Rmult_le_pos; lra|]. rewrite <- (exp_ln g Hg) at 2. apply exp_mono. nra.
  - rewrite Rmin_right, Rmax_left by lra. assert (L : ln g <= 0) by (rewrite <- ln_1; left; apply ln_increasing; lra).
    split; [rewrite <- (exp_ln g Hg) at 1; apply exp_mono; nra|]. rewrite <- exp_0. apply exp_mono. nra.
Qed.
Lemma lib_pow_bounds g A : bpow radix2 (-50) <= g <= bpow radix2 50 -> 0 <= A <= 1 -> bpow radix2 (-51) <= l_pow Lm g A <= bpow radix2 51.
Proof.
  intros Hg HA. assert (Z := b_pos (-50)). assert (B := Rpower_between g A ltac:(lra) HA).
  assert (O1 : bpow radix2 (-50) <= 1) by (change 1 with (bpow radix2 0); apply bpow_le; lia). assert (O2 : 1 <= bpow radix2 50) by (change 1 with (bpow radix2 0); apply bpow_le; lia).
  assert (L : bpow radix2 (-50) <= Rpower g A) by (eapply Rle_trans; [|apply B]; apply Rmin_glb; lra).
  assert (U : Rpower g A <= bpow radix2 50) by (eapply Rle_trans; [apply B|]; apply Rmax_lub; lra).
  assert (K := four_ulp (Rpower g A) (l_pow Lm g A)). assert (T : bpow radix2 (-1000) <= Rpower g A) by (eapply Rle_trans; [apply bpow_le|exact L]; lia).
  specialize (K T (l_pow_acc Lm g A ltac:(lra))). apply Rabs_le_inv in K. rewrite u53_val in K.
  change (-51)%Z with (-1 + -50)%Z. change 51%Z with (1 + 50)%Z. rewrite !bpow_plus. replace (bpow radix2 (-1)) with (/ 2) by (cbn; lra). replace (bpow radix2 1) with 2 by (cbn; lra). lra.
Qed.
Lemma exp_3 n : exp (INR n) <= 3 ^ n.
Proof.
  induction n as [|n IH]; [cbn; rewrite exp_0; lra|]. rewrite S_INR, exp_plus. cbn [pow]. rewrite Rmult_comm. assert (E3 := exp_le_3). apply Rmult_le_compat; auto; apply Rlt_le, exp_pos.
Qed.
Lemma exp_low x : -325 <= x -> bpow radix2 (-520) <= exp x.
Proof.
  intros H. apply Rle_trans with (exp (- (325))); [|apply exp_mono; lra]. rewrite exp_Ropp. change (-520)%Z with (- (520))%Z. rewrite bpow_opp. apply Rinv_le_contravar; [apply exp_pos|].
  apply Rle_trans with (3 ^ 325); [replace 325 with (INR 325) by (rewrite INR_IZR_INZ; reflexivity); apply exp_3|].
  replace 325%nat with (5 * 65)%nat by reflexivity. rewrite pow_mult. apply Rle_trans with ((bpow radix2 8) ^ 65).
  - apply pow_incr. replace (bpow radix2 8) with 256 by (cbn; lra). cbn. lra.
  - rewrite bpow_pow. apply bpow_le. cbn. lia.
Qed.
Lemma lib_exp_low x : -325 <= x <= 0 -> bpow radix2 (-521) <= l_exp Lm x.
Proof.
  intros H. assert (L := exp_low x ltac:(lra)). assert (T : bpow radix2 (-1000) <= exp x) by (eapply Rle_trans; [apply bpow_le|exact L]; lia).
  assert (K := four_ulp (exp x) (l_exp Lm x) T (l_exp_acc Lm x)). apply Rabs_le_inv in K. rewrite u53_val in K.
  change (-521)%Z with (-1 + -520)%Z. rewrite bpow_plus. replace (bpow radix2 (-1)) with (/ 2) by (cbn; lra). assert (Z := b_pos (-520)). lra.
Qed.
Lemma nonpos_rnd r : r <= 0 -> rnd r <= 0. Proof. intros H. apply rnd_le_float; [apply float_0|exact H]. Qed.
Lemma nonneg_rnd r : 0 <= r -> 0 <= rnd r. Proof. intros H. apply rnd_ge_float; [apply float_0|exact H]. Qed.

(** the parameters the claim covers *)
Record params_ok (fp g : R) : Prop := {
  po_fp : bpow radix2 (-40) <= fp <= bpow radix2 22;
  po_g : bpow radix2 (-50) <= g <= bpow radix2 50 }.

Lemma mul_pow2 a b p q : bpow radix2 p <= a -> bpow radix2 q <= b -> (-1074 <= p + q)%Z -> bpow radix2 (p + q) <= rnd (a * b).
Proof.
  intros A B H. apply rnd_ge_float; [apply float_pow2, H|]. rewrite bpow_plus. apply Rmult_le_compat; auto; apply Rlt_le, b_pos.
Qed.
Lemma mul_top a b p q : 0 <= a <= bpow radix2 p -> 0 <= b <= bpow radix2 q -> (-1074 <= p + q)%Z -> 0 <= rnd (a * b) <= bpow radix2 (p + q).
Proof.
  intros A B H. apply rnd_between; [apply float_0|apply float_pow2, H|]. split; [apply Rmult_le_pos; lra|]. rewrite bpow_plus. apply Rmult_le_compat; lra.
Qed.

Lemma density_NB fp g v : params_ok fp g -> 0 <= v <= bpow radix2 100 ->
  exists d, jonswap_density (N:=NB) (Fin fp) (Fin g) (Fin v) = Fin d /\ is_float d /\ 0 <= d <= bpow radix2 320
    /\ (v <= 1 / 2 ^ 52 -> d = 0) /\ (v <= fp / 5 -> (forall x, x <= -770 -> l_exp Lm x = 0) -> d = 0)
    /\ (fp / 4 <= v <= bpow radix2 20 -> bpow radix2 (-680) <= d).
Proof.
  intros [Hfp Hg] Hv. unfold jonswap_density. rewrite nb_spacing, nb_ltb. destruct (Rltb_spec (1 / 2 ^ 52) v) as [S|S].
  2: { exists 0. split; [apply nb_0|]. split; [apply float_0|]. split; [assert (Z := b_pos 320); lra|]. split; [auto|]. split; [auto|]. intros [Q _]. exfalso.
       assert (Z : bpow radix2 (-42) <= fp / 4).
       { change (-42)%Z with (-2 + -40)%Z. rewrite bpow_plus. replace (bpow radix2 (-2)) with (/ 4) by (cbn; lra). lra. }
       assert (E : 1 / 2 ^ 52 < bpow radix2 (-42)) by (cbn; lra). lra. }
  assert (Z40 := b_pos (-40)). assert (S' : bpow radix2 (-52) <= v) by (replace (bpow radix2 (-52)) with (1 / 2 ^ 52) by (cbn; lra); lra). assert (Z52 := b_pos (-52)).
  assert (Nu0 : bpow radix2 (-74) <= v / fp <= bpow radix2 140).
  { split; [apply le_div|apply div_le]; try lra.
    - apply Rle_trans with (bpow radix2 (-74) * bpow radix2 22); [apply Rmult_le_compat_l; [apply Rlt_le, b_pos|lra]|rewrite <- bpow_plus; exact S'].
    - apply Rle_trans with (bpow radix2 140 * bpow radix2 (-40)); [rewrite <- bpow_plus; apply Hv|apply Rmult_le_compat_l; [apply Rlt_le, b_pos|lra]]. }
  assert (Nu := rnd_between _ _ _ (float_pow2 (-74) ltac:(lia)) (float_pow2 140 ltac:(lia)) Nu0).
  rewrite nb_div by lra. rewrite nb_1, nb_sub, nb_mul, RoundDisper.nb_opp. rewrite nb_ltb.
  set (nu := rnd (v / fp)) in *.
  assert (Zn := b_pos (-74)).
  set (sq := rnd (rnd (nu - 1) * rnd (nu - 1))). assert (Sq : 0 <= sq) by (apply nonneg_rnd; assert (T := Rle_0_sqr (rnd (nu - 1))); exact T).
  (* the peak enhancement *)
  assert (Lam : exists A, nexp (n:=NB) (ndiv (n:=NB) (Fin (- sq)) (nmul (n:=NB) (nofZ (n:=NB) 2) (nmul (n:=NB) (if Rltb v fp then lit (N:=NB) 7 100 else lit (N:=NB) 9 100) (if Rltb v fp then lit (N:=NB) 7 100 else lit (N:=NB) 9 100)))) = Fin A /\ 0 <= A <= 1).
  { assert (Sg : exists sg, (if Rltb v fp then lit (N:=NB) 7 100 else lit (N:=NB) 9 100) = Fin sg /\ 6 / 100 <= sg <= 10 / 100).
    { unfold lit. rewrite !nb_ofZ by (cbn; lia). rewrite !nb_div by lra. destruct (Rltb v fp); eexists; (split; [reflexivity|]).
      - assert (T := rnd_near (7 / 100) ltac:(apply big_1020; lra)). lra.
      - assert (T := rnd_near (9 / 100) ltac:(apply big_1020; lra)). lra. }
    destruct Sg as (sg & -> & Hsg). rewrite nb_mul, nb_ofZ by (cbn; lia). rewrite nb_mul.
    assert (S2 : 36 / 10000 <= sg * sg <= 1 / 100) by nra. assert (T := rnd_near (sg * sg) ltac:(apply big_1020; lra)).
    assert (T2 := rnd_near (2 * rnd (sg * sg)) ltac:(apply big_1020; lra)). set (dn := rnd (2 * rnd (sg * sg))) in *.
    rewrite nb_div by lra. rewrite RoundDisper.nb_exp. eexists. split; [reflexivity|]. apply l_exp_01. apply nonpos_rnd. apply div_le; lra. }
  destruct Lam as (A & EA & HA). rewrite EA. rewrite RoundDisper.nb_pow by (assert (Z := b_pos (-50)); lra). assert (LB := lib_pow_bounds g A Hg HA). set (lam := l_pow Lm g A) in *.
  (* the exponential *)
  assert (B1 : bpow radix2 (-100) <= bpow radix2 (-74)) by (apply bpow_le; lia). assert (B52 : bpow radix2 (-100) <= bpow radix2 (-52)) by (apply bpow_le; lia).
  destruct (nb_powi nu (-4) ltac:(lra) ltac:(lra)) as [E4 P4]. rewrite E4.
  assert (EL : lit (N:=NB) (-125) 100 = Fin (-5 / 4)).
  { unfold lit. rewrite !nb_ofZ by (cbn; lia). rewrite nb_div by lra. replace (IZR (-125) / IZR 100) with (-5 / 4) by lra. rewrite rnd_id; [reflexivity|].
    replace (-5 / 4) with (IZR (-5) * bpow radix2 (-2)) by (cbn; lra). apply float_scaled; cbn; lia. }
  rewrite EL, nb_mul, RoundDisper.nb_exp. set (ar := rnd (-5 / 4 * fpowi nu (-4))).
  assert (Ar : ar <= 0) by (apply nonpos_rnd; nra). assert (E01 := l_exp_01 Lm ar Ar). set (ex := l_exp Lm ar) in *.
  (* f^-5 *)
  destruct (nb_powi v (-5) ltac:(lra) ltac:(lra)) as [E5 P5]. rewrite E5.
  assert (F5 := pow_bounds v (-5) (bpow radix2 (-52)) v B52 ltac:(lra) (proj2 Hv) ltac:(lia)).
  assert (T5 : powerRZ (bpow radix2 (-52)) (-5) = bpow radix2 260).
  { change (powerRZ (bpow radix2 (-52)) (-5)) with (/ (bpow radix2 (-52) ^ 5)). rewrite bpow_pow, <- bpow_opp. reflexivity. }
  rewrite T5 in F5. assert (F5' : 0 <= fpowi v (-5) <= bpow radix2 261).
  { split; [exact P5|]. eapply Rle_trans; [apply F5|]. change 261%Z with (1 + 260)%Z. rewrite (bpow_plus _ 1). replace (bpow radix2 1) with 2 by (cbn; lra). assert (Z := b_pos 260). lra. }
  destruct nb_C as (C & EC & HC). rewrite EC, !nb_mul. set (p5 := fpowi v (-5)) in *.
  eexists. split; [reflexivity|]. split; [apply rnd_float|].
  assert (M1 := mul_top C p5 0 261 ltac:(change (bpow radix2 0) with 1; lra) F5' ltac:(lia)).
  assert (M2 := mul_top _ ex (0 + 261) 0 M1 ltac:(change (bpow radix2 0) with 1; lra) ltac:(lia)).
  assert (Zl := b_pos (-51)). assert (M3 := mul_top _ lam (0 + 261 + 0) 51 M2 ltac:(lra) ltac:(lia)).
  split; [split; [apply M3|eapply Rle_trans; [apply M3|apply bpow_le; lia]]|]. split; [intros; lra|]. split.
  { intros Q Ul. assert (Nq : nu <= 2002 / 10000).
    { unfold nu. apply Rle_trans with (rnd (1 / 5)); [apply rnd_le, div_le; lra|]. assert (T := rnd_near (1 / 5) ltac:(apply big_1020; lra)). lra. }
    assert (Bh : 2002 / 10000 <= bpow radix2 100) by (apply Rle_trans with (bpow radix2 0); [change (bpow radix2 0) with 1; lra|apply bpow_le; lia]).
    assert (Bl : bpow radix2 (-100) <= 2002 / 10000) by lra.
    assert (Fn := pow_bounds nu (-4) nu (2002 / 10000) ltac:(lra) ltac:(lra) Bh ltac:(lia)).
    assert (V4 : 622 <= powerRZ (2002 / 10000) (-4)).
    { change (622 <= / ((2002 / 10000) ^ 4)). apply Rmult_le_reg_r with ((2002 / 10000) ^ 4); [lra|]. rewrite Rinv_l; lra. }
    assert (Ar' : ar <= -770) by (unfold ar; apply rnd_le_float; [apply (float_Z (-770)); cbn; lia|]; lra).
    unfold ex. rewrite (Ul ar Ar'), Rmult_0_r, (rnd_id 0), Rmult_0_l by apply float_0. apply rnd_id, float_0. }
  intros [Q1 Q2]. assert (Nq : / 4 <= nu).
  { unfold nu. apply rnd_ge_float; [replace (/ 4) with (bpow radix2 (-2)) by (cbn; lra); apply float_pow2; lia|]. apply le_div; lra. }
  assert (B14 : bpow radix2 (-100) <= / 4) by (replace (/ 4) with (bpow radix2 (-2)) by (cbn; lra); apply bpow_le; lia).
  assert (B15 : / 4 <= bpow radix2 100) by (replace (/ 4) with (bpow radix2 (-2)) by (cbn; lra); apply bpow_le; lia).
  assert (Fn := pow_bounds (/ 4) (-4) (/ 4) (/ 4) B14 ltac:(lra) B15 ltac:(lia)). assert (V4 : powerRZ (/ 4) (-4) = 256) by (change (/ ((/ 4) ^ 4) = 256); field). rewrite V4 in Fn.
  assert (An := fpowi_anti (/ 4) nu (-4) ltac:(lra) ltac:(lia)).
  assert (Ar' : -325 <= ar).
  { unfold ar. apply rnd_ge_float; [apply (float_Z (-325)); cbn; lia|]. lra. }
  assert (El := lib_exp_low ar ltac:(lra)). fold ex in El.
  assert (P5l : bpow radix2 (-101) <= p5).
  { assert (G5 := pow_bounds v (-5) v (bpow radix2 20) ltac:(lra) ltac:(lra) ltac:(apply bpow_le; lia) ltac:(lia)). fold p5 in G5.
    assert (T20 : powerRZ (bpow radix2 20) (-5) = bpow radix2 (-100)).
    { change (powerRZ (bpow radix2 20) (-5)) with (/ (bpow radix2 20 ^ 5)). rewrite bpow_pow, <- bpow_opp. reflexivity. }
    rewrite T20 in G5. change (-101)%Z with (-1 + -100)%Z. rewrite (bpow_plus _ (-1)). replace (bpow radix2 (-1)) with (/ 2) by (cbn; lra). assert (Z := b_pos (-100)). lra. }
  assert (L1 := mul_pow2 C p5 (-6) (-101) ltac:(replace (bpow radix2 (-6)) with (/ 64) by (cbn; lra); lra) P5l ltac:(lia)).
  assert (L2 := mul_pow2 _ ex _ (-521) L1 El ltac:(lia)). assert (L3 := mul_pow2 _ lam _ (-51) L2 ltac:(lra) ltac:(lia)).
  eapply Rle_trans; [apply bpow_le|exact L3]. lia.
Qed.

(** ** The whole function *)
Definition dens (fp g v : R) : R := match jonswap_density (N:=NB) (Fin fp) (Fin g) (Fin v) with Fin r => r | _ => 0 end.
Lemma dens_F h f fp g : freq_axis_fl h f -> params_ok fp g ->
  map (jonswap_density (N:=NB) (Fin fp) (Fin g)) (F f) = F (map (dens fp g) f).
Proof.
  intros Hf Hp. unfold F. rewrite !map_map. apply map_ext_in. intros v Hv.
  assert (P : 0 <= v) by (apply (In_nth _ _ 0) in Hv; destruct Hv as (k & Hk & <-); apply (fa_nonneg h f Hf), Hk).
  destruct (density_NB fp g v Hp (conj P (fa_top _ _ Hf v Hv))) as (d & E & _). unfold dens. rewrite E. reflexivity.
Qed.
Lemma dens_spec h f fp g k : freq_axis_fl h f -> params_ok fp g -> (k < length f)%nat ->
  let d := nth k (map (dens fp g) f) 0 in
  is_float d /\ 0 <= d <= bpow radix2 320 /\ (nth k f 0 <= 1 / 2 ^ 52 -> d = 0)
  /\ (nth k f 0 <= fp / 5 -> (forall x, x <= -770 -> l_exp Lm x = 0) -> d = 0) /\ (fp / 4 <= nth k f 0 <= bpow radix2 20 -> bpow radix2 (-680) <= d).
Proof.
  intros Hf Hp Hk d. unfold d. rewrite (nth_indep _ 0 (dens fp g 0)) by (rewrite map_length; exact Hk). rewrite map_nth.
  destruct (density_NB fp g (nth k f 0) Hp (conj (fa_nonneg h f Hf k Hk) (fa_top _ _ Hf _ (nth_In f 0 Hk)))) as (q & E & R). unfold dens. rewrite E. exact R.
Qed.

Lemma fpart0 f s : floats s -> length s = length f -> fpart f s 0 0 (length f) = fsimp f s.
Proof.
  intros Fs Ls. assert (D : forall l : list R, dz f 0 l = l) by reflexivity. unfold fpart. rewrite D.
  assert (W : wg f 0 s = s).
  { apply (nth_ext _ _ 0 0); [rewrite (wg_length f 0 s Ls); exact (eq_sym Ls)|]. rewrite (wg_length f 0 s Ls). intros k Hk. rewrite (wg_nth f 0 s Ls) by exact Hk. rewrite !D in *.
    change (fpowZ (nth k f 0) 0) with 1. rewrite Rmult_1_l. apply rnd_id, Fs, nth_In. rewrite Ls. exact Hk. }
  rewrite W. rewrite !slice_all by lia. reflexivity.
Qed.
Lemma moment0_NB h f s : freq_axis_fl h f -> length s = length f -> floats s -> monotonic_increasing_constant_step (N:=NB) (F f) = Ok true ->
  compute_moment (N:=NB) (Arr (vec (F f))) (Arr (vec (F s))) 0 (Fin (nth 0 f 0)) (Fin (nth (length f - 1) f 0)) = Ok (Fin (fsimp f s)).
Proof.
  intros Hf Ls Fs Ck. assert (T := fa_two _ _ Hf). assert (G := grid_NB h f s 0 Hf Ls 0 (length f - 1) ltac:(lia) Ck).
  change (zskip f 0) with 0%nat in G. replace (0 - 0)%nat with 0%nat in G by lia. replace (length f - 1 - 0 + 1)%nat with (length f) in G by lia. rewrite fpart0 in G by auto. exact G.
Qed.

Lemma inv_step e H q q' : 0 <= e <= / 1000 -> 0 <= H -> 0 < q -> Rabs (q' - q) <= e * q -> 0 < q' /\ Rabs (H / q' - H / q) <= 101 / 100 * e * (H / q).
Proof.
  intros He HH Hq B. apply Rabs_le_inv in B. assert (Pq : 0 < q') by nra. split; [exact Pq|].
  set (z := H / q). assert (Ez : H = z * q) by (unfold z; field; lra). assert (Hz : 0 <= z) by (apply le_div; lra). clearbody z. subst H.
  assert (zq : 0 <= z * q) by (apply Rmult_le_pos; lra). assert (ez : 0 <= e * z) by (apply Rmult_le_pos; lra).
  assert (K1 : e * z * (q - e * q) <= e * z * q' <= e * z * (q + e * q)) by (split; apply Rmult_le_compat_l; lra).
  assert (K2 : z * (q - e * q) <= z * q' <= z * (q + e * q)) by (split; apply Rmult_le_compat_l; lra).
  assert (ezq : 0 <= e * (z * q)) by (apply Rmult_le_pos; lra). assert (eezq : 0 <= e * (e * (z * q)) <= / 1000 * (e * (z * q))) by (split; [apply Rmult_le_pos; lra|apply Rmult_le_compat_r; lra]).
  apply Rabs_le. split.
  - enough (z * (1 - 101 / 100 * e) <= z * q / q') by lra. apply le_div; [exact Pq|]. nra.
  - enough (z * q / q' <= z * (1 + 101 / 100 * e)) by lra. apply div_le; [exact Pq|]. nra.
Qed.
Lemma sq_step e p p' : 0 <= e <= / 1000 -> 0 <= p -> Rabs (p' - p) <= e * p -> Rabs (p' * p' - p * p) <= 2001 / 1000 * e * (p * p).
Proof.
  intros He Hp B. apply Rabs_le_inv in B. assert (pp : 0 <= p * p) by nra. assert (ep : 0 <= e * p) by (apply Rmult_le_pos; lra). assert (epp : 0 <= e * (p * p)) by (apply Rmult_le_pos; lra).
  assert (L : 0 <= p - e * p) by nra. assert (A1 : (p - e * p) * (p - e * p) <= p' * p') by (apply Rmult_le_compat; lra). assert (A2 : p' * p' <= (p + e * p) * (p + e * p)) by (apply Rmult_le_compat; lra).
  assert (eepp : 0 <= e * (e * (p * p)) <= / 1000 * (e * (p * p))) by (split; [apply Rmult_le_pos; lra|apply Rmult_le_compat_r; lra]).
  apply Rabs_le. split; nra.
Qed.
Lemma thr_of e x : (-1010 <= e)%Z -> bpow radix2 e <= x -> thr x.
Proof. intros He H. right. eapply Rle_trans; [apply bpow_le|exact H]. exact He. Qed.

(** the energy of the densities returned, against the one asked for *)
Lemma energy_chain (d M m H : R) : 76 * u53 <= d <= / 1000000 ->
  bpow radix2 (-780) <= M <= bpow radix2 420 -> bpow radix2 (-100) <= H <= bpow radix2 100 ->
  Rabs (m - M) <= d * M ->
  let q := rnd (4 * rnd (sqrt m)) in let R := rnd (rnd (H / q) * rnd (H / q)) in
  0 <= m /\ 0 < q /\ 0 < R /\ bpow radix2 (-210) <= R * M /\
  forall m', Rabs (m' - R * M) <= d * (R * M) ->
  0 <= m' /\ Rabs (rnd (4 * rnd (sqrt m')) - H) <= 5 / 4 * d * H.
Proof.
  intros Hd HM HH Am q R. assert (U := u53_val). assert (Uu := u_pos). assert (Z1 := b_pos (-780)). assert (Z2 := b_pos (-100)).
  destruct (sqrt_step d M m ltac:(lra) ltac:(lra) Am) as [Pm Sm]. split; [exact Pm|].
  assert (Sq1 : bpow radix2 (-390) <= sqrt M).
  { apply Rsqr_incr_0_var; [|apply sqrt_pos]. rewrite Rsqr_sqrt by lra. unfold Rsqr. rewrite <- bpow_plus. apply HM. }
  assert (Sq2 : sqrt M <= bpow radix2 210).
  { apply Rsqr_incr_0_var; [|apply Rlt_le, b_pos]. rewrite Rsqr_sqrt by lra. unfold Rsqr. rewrite <- bpow_plus. apply HM. }
  assert (Z3 := b_pos (-390)).
  assert (E1 := round_step (51 / 100 * d) (sqrt M) (sqrt m) ltac:(lra) (thr_of (-390) _ ltac:(lia) Sq1) Sm).
  assert (E2 : Rabs (q - 4 * sqrt M) <= (51 / 100 * d + 102 / 100 * u53 + 102 / 100 * u53) * (4 * sqrt M)).
  { apply round_step; [lra|apply (thr_of (-390)); [lia|lra]|].
    replace (4 * rnd (sqrt m) - 4 * sqrt M) with (4 * (rnd (sqrt m) - sqrt M)) by ring. rewrite Rabs_mult, (Rabs_pos_eq 4) by lra. lra. }
  set (w := 4 * sqrt M) in *. assert (Pw : 0 < w) by (unfold w; lra).
  assert (E3 : Rabs (q - w) <= 54 / 100 * d * w) by (eapply Rle_trans; [exact E2|]; apply Rmult_le_compat_r; lra).
  destruct (inv_step (54 / 100 * d) H w q ltac:(lra) ltac:(lra) Pw E3) as [Pq E4]. split; [exact Pq|].
  set (rho := H / w) in *.
  assert (Rho : bpow radix2 (-320) <= rho).
  { apply le_div; [exact Pw|]. apply Rle_trans with (bpow radix2 (-320) * (bpow radix2 2 * bpow radix2 210)).
    - apply Rmult_le_compat_l; [apply Rlt_le, b_pos|]. unfold w. replace (bpow radix2 2) with 4 by (cbn; lra). lra.
    - rewrite <- !bpow_plus. eapply Rle_trans; [apply bpow_le|apply HH]. lia. }
  assert (Z4 := b_pos (-320)).
  assert (E5 : Rabs (rnd (H / q) - rho) <= 57 / 100 * d * rho).
  { eapply Rle_trans; [apply (round_step (101 / 100 * (54 / 100 * d))); [lra|apply (thr_of (-320)); [lia|exact Rho]|exact E4]|]. apply Rmult_le_compat_r; lra. }
  assert (E6 := sq_step (57 / 100 * d) rho _ ltac:(lra) ltac:(lra) E5).
  assert (Rr : bpow radix2 (-640) <= rho * rho) by (replace (-640)%Z with (-320 + -320)%Z by lia; rewrite bpow_plus; apply Rmult_le_compat; lra).
  assert (Z5 := b_pos (-640)).
  assert (E7 : Rabs (R - rho * rho) <= 116 / 100 * d * (rho * rho)).
  { eapply Rle_trans; [apply (round_step (2001 / 1000 * (57 / 100 * d))); [lra|apply (thr_of (-640)); [lia|exact Rr]|exact E6]|]. apply Rmult_le_compat_r; lra. }
  assert (RM : rho * rho * M = H * H / 16).
  { unfold rho, w. assert (Es : sqrt M * sqrt M = M) by (apply sqrt_sqrt; lra). rewrite <- Es at 3. field. lra. }
  assert (E8 : Rabs (R * M - H * H / 16) <= 116 / 100 * d * (H * H / 16)).
  { rewrite <- RM. replace (R * M - rho * rho * M) with ((R - rho * rho) * M) by ring. rewrite Rabs_mult, (Rabs_pos_eq M) by lra.
    replace (116 / 100 * d * (rho * rho * M)) with (116 / 100 * d * (rho * rho) * M) by ring. apply Rmult_le_compat_r; lra. }
  assert (HHs : bpow radix2 (-204) <= H * H / 16).
  { replace (-204)%Z with (-100 + -100 + -4)%Z by lia. rewrite !bpow_plus. replace (bpow radix2 (-4)) with (/ 16) by (cbn; lra). unfold Rdiv. apply Rmult_le_compat_r; [lra|]. apply Rmult_le_compat; lra. }
  assert (Z6 := b_pos (-204)). assert (dd : 0 <= d * (rho * rho) <= / 1000000 * (rho * rho)) by (split; [apply Rmult_le_pos; lra|apply Rmult_le_compat_r; lra]).
  set (K := H * H / 16) in *. assert (dK : 0 <= d * K <= / 1000000 * K) by (split; [apply Rmult_le_pos; lra|apply Rmult_le_compat_r; lra]).
  split; [apply Rabs_le_inv in E7; lra|].
  apply Rabs_le_inv in E8. split.
  { apply Rle_trans with (bpow radix2 (-204) / 2); [|lra]. replace (-210)%Z with (-6 + -204)%Z by lia. rewrite bpow_plus. replace (bpow radix2 (-6)) with (/ 64) by (cbn; lra). lra. }
  intros m' A'. apply Rabs_le_inv in A'.
  assert (A2 : Rabs (m' - K) <= 217 / 100 * d * K).
  { assert (d * (R * M) <= d * (1001 / 1000 * K)) by (apply Rmult_le_compat_l; lra). apply Rabs_le. lra. }
  destruct (sqrt_step (217 / 100 * d) K m' ltac:(lra) ltac:(lra) A2) as [Pm' Sm']. split; [exact Pm'|].
  assert (SK : sqrt K = H / 4).
  { unfold K. replace (H * H / 16) with ((H / 4) * (H / 4)) by field. apply sqrt_square. lra. }
  rewrite SK in Sm'. assert (Th : thr (H / 4)).
  { apply (thr_of (-102)); [lia|]. replace (-102)%Z with (-100 + -2)%Z by lia. rewrite bpow_plus. replace (bpow radix2 (-2)) with (/ 4) by (cbn; lra). lra. }
  assert (E9 := round_step (51 / 100 * (217 / 100 * d)) (H / 4) (sqrt m') ltac:(lra) Th Sm').
  assert (E10 : Rabs (rnd (4 * rnd (sqrt m')) - H) <= (51 / 100 * (217 / 100 * d) + 102 / 100 * u53 + 102 / 100 * u53) * H).
  { apply round_step; [lra|apply (thr_of (-100)); [lia|lra]|]. replace (4 * rnd (sqrt m') - H) with (4 * (rnd (sqrt m') - H / 4)) by field. rewrite Rabs_mult, (Rabs_pos_eq 4) by lra. lra. }
  eapply Rle_trans; [exact E10|]. apply Rmult_le_compat_r; lra.
Qed.

Lemma rsimp_scale c x y : length y = length x -> rsimp x (map (Rmult c) y) = c * rsimp x y.
Proof.
  intros L. assert (E := rsimp_lin c 0 x y y ltac:(lia) eq_refl). rewrite Rmult_0_l, Rplus_0_r in E. rewrite <- E. f_equal.
  apply (nth_ext _ _ 0 0); [rewrite map_length, lc_length; reflexivity|]. rewrite map_length. intros k Hk.
  rewrite lc_nth by reflexivity. rewrite (nth_indep _ 0 (c * 0)) by (rewrite map_length; exact Hk). rewrite (map_nth (Rmult c)). ring.
Qed.
Lemma Rsqr_rnd x q : rnd (x / q) * rnd (x / q) = rnd (Rabs x / q) * rnd (Rabs x / q).
Proof.
  unfold Rabs. destruct (Rcase_abs x); [|reflexivity]. replace (- x / q) with (- (x / q)) by (unfold Rdiv; ring). rewrite rnd_opp. ring.
Qed.

Theorem C89_energy (h fp hm0 g : R) (f : list R) :
  freq_axis_fl h f -> monotonic_increasing_constant_step (N:=NB) (F f) = Ok true -> (Z.of_nat (length f) <= 2 ^ 30)%Z ->
  params_ok fp g -> bpow radix2 (-100) <= Rabs hm0 <= bpow radix2 100 ->
  (exists k, (k < length f)%nat /\ fp / 4 <= nth k f 0 <= bpow radix2 20) ->
  exists S sp H,
    create_spectrum_jonswap (N:=NB) (Arr (vec (F f))) (Fin fp) (Fin hm0) (Fin g) (Fin 0) = Ok (F S)
    /\ length S = length f /\ floats S /\ nonneg S
    /\ (forall k, (k < length f)%nat -> nth k f 0 <= 1 / 2 ^ 52 -> nth k S 0 = 0)
    /\ create_spectrum_object_jonswap (N:=NB) (Arr (vec (F f))) (Fin fp) (Fin hm0) (Fin g) (Fin 0) = Ok sp
    /\ s_f sp = F f /\ s_S sp = F S
    /\ snd (get_Hm0 (N:=NB) (Fin (-1)) (Fin (-1)) sp) = Ok (Fin H)
    /\ Rabs (H - Rabs hm0) <= 5 / 4 * accuracy (length f) * Rabs hm0.
Proof.
  intros Hf Ck Hn Hp HH (k0 & Hk0 & Near). assert (T := fa_two _ _ Hf). assert (Tau := tau_pos).
  set (s := map (dens fp g) f). assert (Ls : length s = length f) by apply map_length.
  assert (Sp := fun k Hk => dens_spec h f fp g k Hf Hp Hk). fold s in Sp. cbv zeta in Sp.
  assert (Fs : floats s) by (intros v Hv; apply (In_nth _ _ 0) in Hv; destruct Hv as (k & Hk & <-); apply Sp; rewrite Ls in Hk; exact Hk).
  assert (Ns : nonneg s) by (intros v Hv; apply (In_nth _ _ 0) in Hv; destruct Hv as (k & Hk & <-); rewrite Ls in Hk; apply (Sp k Hk)).
  assert (Hh := fa_sane _ _ Hf). assert (Ph := h_pos h Hh).
  assert (Nf : f <> []) by (destruct f; [cbn in T; lia|discriminate]).
  assert (Hx : exact_steps h f) by (intros i Hi; assert (D := fa_steps _ _ Hf i Hi); apply Rabs_le_inv in D; unfold close; lra).
  assert (U := u53_val). assert (Uu := u_pos). assert (He := eps_small (length f) Hn). rewrite <- accuracy_eps in He. set (d := accuracy (length f)) in *.
  assert (Ed : d = 2 * (INR (38 + length f) * u53)) by (unfold d; rewrite accuracy_eps; reflexivity).
  set (M := rsimp f s).
  assert (M1 : bpow radix2 (-780) <= M).
  { assert (G := rsimp_ge h f s k0 Hh Hx Ns Ls T Hk0). eapply Rle_trans; [|exact G]. destruct (Sp k0 Hk0) as (_ & _ & _ & _ & Q). specialize (Q Near).
    replace (-780)%Z with (-2 + -90 + -688)%Z by lia. rewrite !bpow_plus. replace (bpow radix2 (-2)) with (/ 4) by (cbn; lra).
    assert (Q2 : bpow radix2 (-688) <= bpow radix2 (-680)) by (apply bpow_le; lia). assert (Z := b_pos (-688)). assert (Z' := b_pos (-90)). apply Rmult_le_compat; lra. }
  assert (M2 : M <= bpow radix2 420).
  { assert (G := rsimp_top h f s (bpow radix2 320) Hh Hx). eapply Rle_trans; [apply G; auto|].
    - intros v Hv. apply (In_nth _ _ 0) in Hv. destruct Hv as (k & Hk & <-). rewrite Ls in Hk. apply (Sp k Hk).
    - replace 420%Z with (320 + 100)%Z by lia. rewrite bpow_plus. apply Rmult_le_compat_l; [apply Rlt_le, b_pos|].
      assert (Il : In (nth (length f - 1) f 0) f) by (apply nth_In; lia). assert (B := fa_top _ _ Hf _ Il). assert (A := fa_nonneg h f Hf 0%nat ltac:(lia)). lra. }
  assert (Z780 := b_pos (-780)).
  assert (Sl : slack (length f) h tau <= bpow radix2 (-860)) by (apply (slack_small h f s Hf Ls); [exact Hn|lra]).
  assert (Sl0 : slack (length f) h 0 <= bpow radix2 (-860)) by (apply (slack_small h f s Hf Ls); [exact Hn|lra]).
  assert (S860 : bpow radix2 (-860) <= u53 * bpow radix2 (-780)) by (unfold u53; rewrite <- bpow_plus; apply bpow_le; lia).
  set (m := fsimp f s).
  assert (Am : Rabs (m - M) <= d * M).
  { assert (E := simpson_mix h 0 0 f s s ltac:(lra) Hh ltac:(lia) ltac:(lia) Hx Ns).
    assert (V : values_mix 0 0 s s) by (split; [reflexivity|]; intros i Hi; apply rel_mix; [apply Ns, nth_In, Hi|apply rel_refl]).
    specialize (E V Ls Nf). fold m M in E. eapply Rle_trans; [exact E|]. rewrite Ed, !plus_INR. replace (INR 0) with 0 by reflexivity. replace (INR 26) with 26 by (cbn; lra). replace (INR 38) with 38 by (cbn; lra).
    assert (u53 * bpow radix2 (-780) <= u53 * M) by (apply Rmult_le_compat_l; lra). assert (0 <= u53 * M) by (apply Rmult_le_pos; lra). nra. }
  destruct (energy_chain d M m (Rabs hm0) He (conj M1 M2) HH Am) as (Pm & Pq & PR & RM & Fin').
  set (q := rnd (4 * rnd (sqrt m))) in *. rewrite <- Rsqr_rnd in PR, RM, Fin'. set (R0 := rnd (rnd (hm0 / q) * rnd (hm0 / q))) in *.
  set (S := map (fun v => rnd (v * R0)) s). assert (LS : length S = length f) by (unfold S; rewrite map_length; exact Ls).
  assert (NS : forall k, (k < length f)%nat -> nth k S 0 = rnd (nth k s 0 * R0)).
  { intros k Hk. unfold S. rewrite (nth_indep _ 0 ((fun v => rnd (v * R0)) 0)) by (rewrite map_length, Ls; exact Hk). apply (map_nth (fun v => rnd (v * R0))). }
  assert (FS : floats S) by (intros v Hv; apply in_map_iff in Hv; destruct Hv as (w & <- & _); apply rnd_float).
  assert (PS : nonneg S) by (intros v Hv; apply in_map_iff in Hv; destruct Hv as (w & <- & Hw); apply nonneg_rnd, Rmult_le_pos; [apply Ns, Hw|lra]).
  assert (Ejon : create_spectrum_jonswap (N:=NB) (Arr (vec (F f))) (Fin fp) (Fin hm0) (Fin g) (Fin 0) = Ok (F S)).
  { assert (NF : F f <> []) by (destruct f; [contradiction|discriminate]).
    unfold create_spectrum_jonswap. rewrite vec_convert. cbn [fst snd]. rewrite F_length.
    replace (Nat.eqb (length f) 0) with false by (symmetry; apply Nat.eqb_neq; lia). change (Nat.ltb 1 0) with false.
    rewrite as_list_vec, bind_Ok, idx_F, bind_Ok by lia. rewrite nb_0, nb_eqb, Reqb_true by reflexivity. rewrite bind_Ok. cbv zeta.
    rewrite (dens_F h f fp g Hf Hp). fold s. rewrite idx_F, bind_Ok by lia.
    assert (Em : compute_moment (N:=NB) (Arr (vec (F f))) (Arr (vec (F s))) 0 (Fin (nth 0 f 0)) (Fin (nth (length f - 1) f 0)) = Ok (Fin m)) by exact (moment0_NB h f s Hf Ls Fs Ck).
    etransitivity; [exact (f_equal (fun z => bind z _) Em)|]. rewrite bind_Ok.
    rewrite RoundDisper.nb_sqrt by exact Pm. rewrite nb_ofZ by (cbn; lia). rewrite nb_mul. fold q. rewrite nb_div by lra. rewrite nb_mul. fold R0. f_equal. unfold F, S. rewrite !map_map. reflexivity. }
  exists S, (fresh (N:=NB) (F f) (F S)). set (m' := fsimp f S).
  assert (Am' : Rabs (m' - R0 * M) <= d * (R0 * M)).
  { assert (V : values_mix 1 tau (map (Rmult R0) s) S).
    { split; [rewrite map_length; lia|]. rewrite map_length. intros i Hi. rewrite (nth_indep _ 0 (R0 * 0)) by (rewrite map_length; exact Hi). rewrite (map_nth (Rmult R0)), NS by lia. rewrite Rmult_comm.
      apply (mix_weaken 1 _ (0 + tau)); [lia|lra|]. apply mix_rnd; [lia|]. apply rel_mix; [apply Rmult_le_pos; [apply Ns, nth_In, Hi|lra]|apply rel_refl]. }
    assert (Nm : nonneg (map (Rmult R0) s)) by (intros v Hv; apply in_map_iff in Hv; destruct Hv as (w & <- & Hw); apply Rmult_le_pos; [lra|apply Ns, Hw]).
    assert (E := simpson_mix h 1 tau f (map (Rmult R0) s) S ltac:(lra) Hh ltac:(lia) ltac:(lia) Hx Nm V ltac:(rewrite map_length; exact Ls) Nf).
    rewrite rsimp_scale in E by exact Ls. fold m' M in E. eapply Rle_trans; [exact E|]. rewrite Ed, !plus_INR. replace (INR 1) with 1 by reflexivity. replace (INR 26) with 26 by (cbn; lra). replace (INR 38) with 38 by (cbn; lra).
    set (K := R0 * M) in *. assert (bpow radix2 (-780) <= bpow radix2 (-210)) by (apply bpow_le; lia).
    assert (u53 * bpow radix2 (-780) <= u53 * K) by (apply Rmult_le_compat_l; lra). assert (0 <= u53 * K) by (apply Rmult_le_pos; lra). nra. }
  destruct (Fin' m' Am') as [Pm' Acc]. exists (rnd (4 * rnd (sqrt m'))).
  split; [exact Ejon|]. split; [exact LS|]. split; [exact FS|]. split; [exact PS|]. split.
  { intros k Hk Hz. rewrite NS by exact Hk. destruct (Sp k Hk) as (_ & _ & Q & _). rewrite (Q Hz), Rmult_0_l. apply rnd_id, float_0. }
  split; [unfold create_spectrum_object_jonswap; rewrite Ejon, bind_Ok; apply spectrum_ok_NB; auto|]. split; [reflexivity|]. split; [reflexivity|]. split; [|exact Acc].
  destruct (flim_both h f (Fin (-1)) (Fin (-1)) 0 (length f - 1) Hf ltac:(lia) ltac:(left; auto) ltac:(left; auto)) as [_ FB].
  assert (V : v_Hm0 (N:=NB) (F f) (F S) (Fin (-1)) (Fin (-1)) = Ok (Fin (rnd (4 * rnd (sqrt m'))))).
  { unfold v_Hm0. rewrite FB, bind_Ok. unfold v_moment.
    assert (Em : compute_moment (N:=NB) (Arr (vec (F f))) (Arr (vec (F S))) 0 (Fin (nth 0 f 0)) (Fin (nth (length f - 1) f 0)) = Ok (Fin m')) by exact (moment0_NB h f S Hf LS FS Ck).
    etransitivity; [exact (f_equal (fun z => bind z _) Em)|]. rewrite bind_Ok.
    rewrite RoundDisper.nb_sqrt by exact Pm'. rewrite nb_ofZ by (cbn; lia). rewrite nb_mul. reflexivity. }
  unfold get_Hm0, getter, mbind, mget, mlift, mset. cbn [fresh s_f s_S]. rewrite V. reflexivity.
Qed.

(** below a fifth of the peak frequency the exponential underflows: with a library whose exp is 0 where the exact value is below the
    smallest number, every density is 0 before scaling, and the scaling makes 0/0-like values of all of them *)
Lemma zero_scaled (a : R) : nmul (n:=NB) (Fin 0) (nmul (n:=NB) (ndiv (n:=NB) (Fin a) (Fin 0)) (ndiv (n:=NB) (Fin a) (Fin 0))) = NaN.
Proof.
  assert (Z : xinf_times 0 = NaN) by (unfold xinf_times; destruct (Rlt_dec 0 0); [lra|]; destruct (Rlt_dec 0 0); [lra|reflexivity]).
  assert (Q : ndiv (n:=NB) (Fin a) (Fin 0) = xinf_times a).
  { change (ndiv (n:=NB) (Fin a) (Fin 0)) with (xround (xdiv (Fin a) (Fin 0))). cbn [xdiv]. destruct (Req_EM_T 0 0) as [_|C]; [|contradiction C; reflexivity].
    unfold xinf_times. destruct (Rlt_dec 0 a); [reflexivity|]. destruct (Rlt_dec a 0); reflexivity. }
  rewrite Q. change (nmul (n:=NB)) with (fun x y => xround (xmul x y)). cbv beta. unfold xinf_times at 1 2. destruct (Rlt_dec 0 a) as [_|_].
  - cbn [xmul xround]. rewrite Z. reflexivity.
  - destruct (Rlt_dec a 0); cbn [xmul xround]; [rewrite Z|]; reflexivity.
Qed.
Lemma spectrum_any (f : list R) (l : list NB) : (2 <= length f)%nat -> length l = length f ->
  monotonic_increasing_constant_step (N:=NB) (F f) = Ok true ->
  spectrum_init (N:=NB) (Arr (vec (F f))) (Arr (vec l)) = Ok (fresh (N:=NB) (F f) l).
Proof.
  intros H2 Ls Ck. assert (Nf' : F f <> []) by (destruct f; [cbn in H2; lia|discriminate]). assert (Ns' : l <> []) by (destruct l; [cbn in Ls; lia|discriminate]).
  destruct (@hv_convert (car NB) (F f) (Arr (vec (F f))) Nf' (hv_flat _)) as (kf & _ & Ef).
  destruct (@hv_convert (car NB) l (Arr (vec l)) Ns' (hv_flat _)) as (ks & _ & Es).
  unfold spectrum_init. rewrite Ef, Es. cbn [fst snd]. rewrite !as_list_vec, bind_Ok, Ck, bind_Ok. cbn [negb].
  rewrite !F_length, Ls, Nat.eqb_refl. reflexivity.
Qed.
Theorem C89_underflow (h fp hm0 g : R) (f : list R) :
  freq_axis_fl h f -> monotonic_increasing_constant_step (N:=NB) (F f) = Ok true -> (Z.of_nat (length f) <= 2 ^ 30)%Z ->
  params_ok fp g -> (forall x, x <= -770 -> l_exp Lm x = 0) -> (forall v, In v f -> v <= fp / 5) ->
  exists sp,
    create_spectrum_jonswap (N:=NB) (Arr (vec (F f))) (Fin fp) (Fin hm0) (Fin g) (Fin 0) = Ok (map (fun _ => NaN) f)
    /\ create_spectrum_object_jonswap (N:=NB) (Arr (vec (F f))) (Fin fp) (Fin hm0) (Fin g) (Fin 0) = Ok sp
    /\ s_f sp = F f /\ s_S sp = map (fun _ => NaN) f.
Proof.
  intros Hf Ck Hn Hp Ul Low. assert (T := fa_two _ _ Hf).
  set (s := map (dens fp g) f). assert (Ls : length s = length f) by apply map_length.
  assert (Z : forall v, In v s -> v = 0).
  { intros v Hv. apply (In_nth _ _ 0) in Hv. destruct Hv as (k & Hk & <-). rewrite Ls in Hk.
    destruct (dens_spec h f fp g k Hf Hp Hk) as (_ & _ & _ & Q & _). apply Q; auto. apply Low, nth_In, Hk. }
  assert (Fs : floats s) by (intros v Hv; rewrite (Z v Hv); apply float_0).
  assert (Nf : f <> []) by (destruct f; [cbn in T; lia|discriminate]).
  assert (E0 : s = map (Rmult 0) s) by (rewrite <- (map_id s) at 1; apply map_ext_in; intros v Hv; rewrite (Z v Hv); ring).
  assert (Rs : rsimp f s = 0) by (rewrite E0, rsimp_scale by exact Ls; ring).
  assert (M0 : fsimp f s = 0).
  { assert (Hx : exact_steps h f) by (intros i Hi; assert (D := fa_steps _ _ Hf i Hi); apply Rabs_le_inv in D; assert (Ph := h_pos h (fa_sane _ _ Hf)); unfold close; lra).
    assert (V : values_ok 0 s s) by (split; [reflexivity|]; intros i Hi; split; [left; apply Z, nth_In, Hi|apply rel_refl]).
    destruct (simpson_accuracy h 0 f s s (fa_sane _ _ Hf) ltac:(lia) ltac:(lia) Hx V Ls Nf) as [_ A]. rewrite Rs, Rmult_0_r, Rminus_0_r in A.
    assert (P := Rabs_pos (fsimp f s)). destruct (Req_dec (fsimp f s) 0) as [E|E]; [exact E|]. apply Rabs_pos_lt in E. lra. }
  assert (Ejon : create_spectrum_jonswap (N:=NB) (Arr (vec (F f))) (Fin fp) (Fin hm0) (Fin g) (Fin 0) = Ok (map (fun _ => NaN) f)).
  { assert (NF : F f <> []) by (destruct f; [contradiction|discriminate]).
    unfold create_spectrum_jonswap. rewrite vec_convert. cbn [fst snd]. rewrite F_length.
    replace (Nat.eqb (length f) 0) with false by (symmetry; apply Nat.eqb_neq; lia). change (Nat.ltb 1 0) with false.
    rewrite as_list_vec, bind_Ok, idx_F, bind_Ok by lia. rewrite nb_0, nb_eqb, Reqb_true by reflexivity. rewrite bind_Ok. cbv zeta.
    rewrite (dens_F h f fp g Hf Hp). fold s. rewrite idx_F, bind_Ok by lia.
    assert (Em : compute_moment (N:=NB) (Arr (vec (F f))) (Arr (vec (F s))) 0 (Fin (nth 0 f 0)) (Fin (nth (length f - 1) f 0)) = Ok (Fin 0)) by (etransitivity; [exact (moment0_NB h f s Hf Ls Fs Ck)|rewrite M0; reflexivity]).
    etransitivity; [exact (f_equal (fun z => bind z _) Em)|]. rewrite bind_Ok.
    rewrite RoundDisper.nb_sqrt by lra. rewrite sqrt_0, nb_ofZ by (cbn; lia). rewrite nb_mul. rewrite (rnd_id 0), Rmult_0_r, (rnd_id 0) by apply float_0. f_equal.
    unfold F, s. rewrite !map_map. apply map_ext_in. intros v Hv. assert (D : dens fp g v = 0) by (apply Z, in_map, Hv). rewrite D. apply zero_scaled. }
  exists (fresh (N:=NB) (F f) (map (fun _ => NaN) f)). split; [exact Ejon|]. split; [|split; reflexivity].
  unfold create_spectrum_object_jonswap. rewrite Ejon, bind_Ok.
  apply (spectrum_any f (map (fun _ => NaN) f)); auto. apply map_length.
Qed.

(** create_spectrum_piersonmoskowitz in binary64 is the JONSWAP function: both claims above hold of it (the caller's default
    peak enhancement is 1) *)
Theorem C89_piersonmoskowitz (f : list R) (fp hm0 g l : NB) : f <> [] ->
  create_spectrum_piersonmoskowitz (N:=NB) (Arr (vec (F f))) fp hm0 g l = create_spectrum_jonswap (N:=NB) (Arr (vec (F f))) fp hm0 g l.
Proof.
  intros Hn. assert (Nf : F f <> []) by (destruct f; [contradiction|discriminate]).
  unfold create_spectrum_piersonmoskowitz. destruct (@hv_convert (car NB) (F f) (Arr (vec (F f))) Nf (hv_flat _)) as (k & _ & E). rewrite E. reflexivity.
Qed.

(** ** Witnesses *)
Lemma axis4_ok : freq_axis_fl 1 [0; 1; 2; 3] /\ monotonic_increasing_constant_step (N:=NB) (F [0; 1; 2; 3]) = Ok true /\ (Z.of_nat (length [0; 1; 2; 3]%R) <= 2 ^ 30)%Z.
Proof.
  destruct C77_witness as (_ & Hf & _). split; [exact Hf|]. split; [|cbn; lia].
  apply (C60_near_uniform_accepted [0; 1; 2; 3] 0 1); [cbn; lia|lra|]. intros [|[|[|[|i]]]] Hi; cbn in Hi; try lia; cbn [nth INR]; apply Rabs_le; split; cbn; nra.
Qed.
(** the frequencies 0, 1, 2, 3 with the peak at 1, enhancement 3 and Hm0 2: the claim of [C89_energy] holds and is not vacuous;
    with the peak at 20 the axis is below a fifth of it *)
Example C89_witness :
  params_ok 1 3 /\ (exists k, (k < length [0; 1; 2; 3]%R)%nat /\ 1 / 4 <= nth k [0; 1; 2; 3] 0 <= bpow radix2 20)
  /\ (exists S (sp : spec NB) H, create_spectrum_jonswap (N:=NB) (Arr (vec (F [0; 1; 2; 3]))) (Fin 1) (Fin 2) (Fin 3) (Fin 0) = Ok (F S)
       /\ length S = 4%nat /\ nonneg S /\ nth 0 S 0 = 0 /\ s_S sp = F S
       /\ snd (get_Hm0 (N:=NB) (Fin (-1)) (Fin (-1)) sp) = Ok (Fin H) /\ Rabs (H - 2) <= / 10 ^ 12)
  /\ params_ok 20 3 /\ (forall v, In v [0; 1; 2; 3] -> v <= 20 / 5).
Proof.
  assert (P : forall fp, 1 <= fp <= 20 -> params_ok fp 3).
  { intros fp Hfp. assert (A : bpow radix2 (-40) <= bpow radix2 0) by (apply bpow_le; lia). assert (B : bpow radix2 5 <= bpow radix2 22) by (apply bpow_le; lia).
    assert (C : bpow radix2 (-50) <= bpow radix2 0) by (apply bpow_le; lia). assert (D : bpow radix2 2 <= bpow radix2 50) by (apply bpow_le; lia).
    change (bpow radix2 0) with 1 in *. replace (bpow radix2 5) with 32 in B by (cbn; lra). replace (bpow radix2 2) with 4 in D by (cbn; lra). split; lra. }
  assert (N : exists k, (k < length [0; 1; 2; 3]%R)%nat /\ 1 / 4 <= nth k [0; 1; 2; 3] 0 <= bpow radix2 20).
  { exists 1%nat. split; [cbn; lia|]. cbn [nth]. assert (B : bpow radix2 0 <= bpow radix2 20) by (apply bpow_le; lia). change (bpow radix2 0) with 1 in B. lra. }
  split; [apply P; lra|]. split; [exact N|]. split.
  - destruct axis4_ok as (Hf & Ck & Hn).
    assert (A2 : Rabs 2 = 2) by (apply Rabs_pos_eq; lra).
    assert (HH : bpow radix2 (-100) <= Rabs 2 <= bpow radix2 100).
    { rewrite A2. replace 2 with (bpow radix2 1) by (cbn; lra). split; apply bpow_le; lia. }
    destruct (C89_energy 1 1 2 3 [0; 1; 2; 3] Hf Ck Hn (P 1 ltac:(lra)) HH N) as (S & sp & H & E & L & _ & Nn & Z & _ & _ & ES & EH & Acc).
    exists S, sp, H. split; [exact E|]. split; [exact L|]. split; [exact Nn|]. split; [apply (Z 0%nat); cbn; [lia|lra]|]. split; [exact ES|]. split; [exact EH|].
    rewrite A2 in Acc. eapply Rle_trans; [exact Acc|]. unfold accuracy. cbn [length]. rewrite !INR_IZR_INZ. cbn. lra.
  - split; [apply P; lra|]. intros v Hv. cbn in Hv. destruct Hv as [<-|[<-|[<-|[<-|[]]]]]; lra.
Qed.
End AnyOrder.

(** correct rounding underflows as [C89_underflow] asks *)
Example C89_witness_underflow (x : R) : x <= -770 -> l_exp rounded_libm x = 0.
Proof.
  intros H. change (l_exp rounded_libm x) with (rnd (exp x)).
  assert (E : exp x <= bpow radix2 (-1078)).
  { apply Rle_trans with (exp (- (770))); [apply exp_mono; lra|]. rewrite exp_Ropp. change (-1078)%Z with (- (1078))%Z. rewrite bpow_opp. apply Rinv_le_contravar; [apply b_pos|].
    assert (K : forall n, (269 / 100) ^ n <= exp (INR n)).
    { induction n as [|n IH]; [cbn; rewrite exp_0; lra|]. rewrite S_INR, exp_plus. cbn [pow]. rewrite Rmult_comm. assert (L := e_lower).
      apply Rmult_le_compat; auto; [apply pow_le; lra|lra]. }
    replace 770 with (INR 770) by (rewrite INR_IZR_INZ; reflexivity). eapply Rle_trans; [|apply K].
    replace 770%nat with (5 * 154)%nat by reflexivity. rewrite pow_mult. apply Rle_trans with ((bpow radix2 7) ^ 154).
    - rewrite bpow_pow. apply bpow_le. cbn. lia.
    - apply pow_incr. replace (bpow radix2 7) with 128 by (cbn; lra). cbn. lra. }
  assert (P := exp_pos x). assert (R0 : 0 <= rnd (exp x)) by (apply rnd_ge_float; [apply float_0|lra]).
  assert (R1 : rnd (exp x) <= 2 * exp x).
  { assert (Q := rnd_nearest (exp x) 0 float_0). rewrite Rminus_0_l, Rabs_Ropp, (Rabs_pos_eq (exp x)) in Q by lra. apply Rabs_le_inv in Q. lra. }
  destruct R0 as [R0|R0]; [|auto]. exfalso.
  assert (G := generic_format_ge_bpow radix2 fexp64 (-1074) (fun e => ltac:(unfold fexp64, FLT_exp; lia)) (rnd (exp x)) R0 (rnd_float _)).
  assert (B : bpow radix2 (-1074) = 16 * bpow radix2 (-1078)) by (change (-1074)%Z with (4 + -1078)%Z; rewrite bpow_plus; cbn; lra). assert (Z := b_pos (-1078)). lra.
Qed.
