(** * How the decomposition amplifies errors in the records (core_wave_decomposition.py): C88 *)

From Coq Require Import ZArith Reals Lra Lia List Bool.
From Coquelicot Require Import Complex.
From Verif Require Import Num XR Engine Cpx SpectralModel DisperModel DecompModel Spec XRFacts DFT FourierSpec RSum EngineProps
  TimeProps TimeProps3 FourierFacts FourierProps DisperProps DecompSpec DecompProps DecompClaims DensityProps BandSplit.
Import ListNotations.
Open Scope R_scope.

(** ** One frequency *)
Section OneFrequency.
  Variables (w d : nat -> R) (X : nat -> C) (k : R) (J : nat).
  Hypothesis Hw : forall j, (j < J)%nat -> 0 <= w j.
  Hypothesis HS : sep w d k J <> 0.
  Let I0 := solI w d X k J.
  Let R0 := solR w d X k J.
  Let Y := fun j => (I0 * ei (- (k * d j)) + R0 * ei (k * d j))%C.
  Let Q := RS J (fun j => w j * sq (Y j)).
  Let P := RS J (fun j => w j * sq (X j)).

  Lemma sep_nonneg : 0 <= sep w d k J.
  Proof.
    unfold sep. apply RS_nonneg. intros i Hi. apply RS_nonneg. intros j Hj.
    apply Rmult_le_pos; [apply Rmult_le_pos; apply Hw; lia|apply Rle_0_sqr].
  Qed.
  Lemma W_nonneg : 0 <= W w J.
  Proof. apply RS_nonneg, Hw. Qed.
  Lemma fit_cross : Q = fst (Cconj I0 * b2 w d X k J + Cconj R0 * b1 w d X k J)%C.
  Proof.
    destruct (sol_normal w d X k J HS) as [E1 E2]. fold I0 R0 in E1, E2. rewrite <- E1, <- E2. unfold Q, Y. clear E1 E2.
    replace (fst (Cconj I0 * (RtoC (W w J) * I0 + a22 w d k J * R0) + Cconj R0 * (a11 w d k J * I0 + RtoC (W w J) * R0))%C)
      with (W w J * (sq I0 + sq R0) + 2 * fst (Cconj I0 * R0 * a22 w d k J)%C).
    2:{ rewrite a11_conj. generalize (a22 w d k J) (W w J). intros [p q] z. unfold sq. destruct I0, R0; cbn. ring. }
    unfold W, a22. rewrite Rmult_comm, <- RS_scal, <- Csum_scal, Csum_fst, <- RS_scal, <- RS_plus. apply RS_ext. intros j Hj.
    replace (2 * k * d j) with (k * d j + k * d j) by ring. rewrite ei_plus, ei_opp.
    assert (U : sq (ei (k * d j)) = 1) by (unfold sq, ei; cbn; assert (T := sin2_cos2 (k * d j)); unfold Rsqr in T; lra).
    generalize dependent (ei (k * d j)). intros [u1 u2] U. unfold sq in *. cbn in U. destruct I0 as [p1 p2], R0 as [q1 q2]. cbn.
    replace (w j * ((p1 * u1 - p2 * - u2 + (q1 * u1 - q2 * u2)) * (p1 * u1 - p2 * - u2 + (q1 * u1 - q2 * u2)) +
       (p1 * - u2 + p2 * u1 + (q1 * u2 + q2 * u1)) * (p1 * - u2 + p2 * u1 + (q1 * u2 + q2 * u1))))
     with (w j * ((p1 * p1 + p2 * p2 + (q1 * q1 + q2 * q2)) * (u1 * u1 + u2 * u2)
       + 2 * ((p1 * q1 + p2 * q2) * (u1 * u1 - u2 * u2) - (p1 * q2 - p2 * q1) * (2 * (u1 * u2))))) by ring.
    rewrite U. ring.
  Qed.
  (** the fitted waves have no more energy than the measurements *)
  Lemma fit_le : Q <= P.
  Proof.
    assert (N : 0 <= RS J (fun j => w j * sq (X j - Y j)%C)).
    { apply RS_nonneg. intros j Hj. apply Rmult_le_pos; [auto|apply sq_nonneg]. }
    assert (E : RS J (fun j => w j * sq (X j - Y j)%C) = P - 2 * fst (Cconj I0 * b2 w d X k J + Cconj R0 * b1 w d X k J)%C + Q).
    { unfold P, Q, b1, b2. rewrite <- !Csum_scal, <- Csum_plus, Csum_fst, <- RS_scal, <- RS_minus, <- RS_plus. apply RS_ext. intros j Hj.
      unfold Y. rewrite ei_opp. generalize (X j) (ei (k * d j)) (w j). intros [r1 r2] [u1 u2] ww. unfold sq.
      destruct I0 as [p1 p2], R0 as [q1 q2]. cbn. ring. }
    rewrite <- fit_cross in E. lra.
  Qed.
  Lemma fit_ge : (W w J - sqrt (sq (a22 w d k J))) * (sq I0 + sq R0) <= Q.
  Proof.
    rewrite fit_cross. destruct (sol_normal w d X k J HS) as [E1 E2]. fold I0 R0 in E1, E2. rewrite <- E1, <- E2. clear E1 E2.
    replace (fst (Cconj I0 * (RtoC (W w J) * I0 + a22 w d k J * R0) + Cconj R0 * (a11 w d k J * I0 + RtoC (W w J) * R0))%C)
      with (W w J * (sq I0 + sq R0) + 2 * fst (Cconj I0 * R0 * a22 w d k J)%C).
    2:{ rewrite a11_conj. generalize (a22 w d k J) (W w J). intros [p q] z. unfold sq. destruct I0, R0; cbn. ring. }
    set (a := a22 w d k J). assert (A := sq_nonneg a). assert (SA := sqrt_sqrt (sq a) A). assert (SN := sqrt_pos (sq a)).
    set (r := sqrt (sq a)) in *. clearbody r. clearbody a. enough (- (r * (sq I0 + sq R0)) <= 2 * fst (Cconj I0 * R0 * a)%C) by lra.
    apply Ropp_le_cancel. rewrite Ropp_involutive.
    assert (B : Rsqr (2 * fst (Cconj I0 * R0 * a)%C) <= Rsqr (r * (sq I0 + sq R0))).
    { unfold sq in *. destruct I0 as [p1 p2], R0 as [q1 q2], a as [a1 a2]. cbn in *. unfold Rsqr.
      replace (r * (p1 * p1 + p2 * p2 + (q1 * q1 + q2 * q2)) * (r * (p1 * p1 + p2 * p2 + (q1 * q1 + q2 * q2))))
        with (r * r * (p1 * p1 + p2 * p2 + (q1 * q1 + q2 * q2)) ^ 2) by ring. rewrite SA.
      set (z1 := p1 * q1 - - p2 * q2). set (z2 := p1 * q2 + - p2 * q1).
      assert (Z : 4 * (z1 * z1 + z2 * z2) <= (p1 * p1 + p2 * p2 + (q1 * q1 + q2 * q2)) ^ 2).
      { assert (T := pow2_ge_0 (p1 * p1 + p2 * p2 - (q1 * q1 + q2 * q2))).
        replace (z1 * z1 + z2 * z2) with ((p1 * p1 + p2 * p2) * (q1 * q1 + q2 * q2)) by (unfold z1, z2; ring). nra. }
      assert (C0 : 0 <= (z1 * a2 + z2 * a1) ^ 2) by apply pow2_ge_0.
      replace (2 * (z1 * a1 - z2 * a2) * (2 * (z1 * a1 - z2 * a2)))
        with (4 * (z1 * z1 + z2 * z2) * (a1 * a1 + a2 * a2) - 4 * (z1 * a2 + z2 * a1) ^ 2) by ring.
      assert (D : 4 * (z1 * z1 + z2 * z2) * (a1 * a1 + a2 * a2) <= (p1 * p1 + p2 * p2 + (q1 * q1 + q2 * q2)) ^ 2 * (a1 * a1 + a2 * a2))
        by (apply Rmult_le_compat_r; auto). lra. }
    apply Rsqr_le_abs_0 in B. rewrite (Rabs_pos_eq (r * _)) in B.
    2:{ apply Rmult_le_pos; auto. assert (T1 := sq_nonneg I0). assert (T2 := sq_nonneg R0). lra. }
    assert (T := Rle_abs (- (2 * fst (Cconj I0 * R0 * a)%C))). rewrite Rabs_Ropp in T. lra.
  Qed.
  Lemma sol_bound : sq I0 + sq R0 <= W w J / (2 * sep w d k J) * P.
  Proof.
    assert (S0 := sep_nonneg). assert (SP : 0 < sep w d k J) by (destruct S0; [auto|congruence]).
    assert (D := det_real w d k J). unfold det in D. rewrite a11_conj, Cmult_comm, sq_conj, <- RtoC_mult, <- RtoC_minus in D.
    apply RtoC_inj in D. assert (H1 := fit_le). assert (H2 := fit_ge). assert (WN := W_nonneg).
    set (a := sq (a22 w d k J)) in *. assert (A : 0 <= a) by apply sq_nonneg.
    assert (SA := sqrt_sqrt a A). assert (SN := sqrt_pos a). set (r := sqrt a) in *. set (s := sep w d k J) in *. set (V := W w J) in *.
    assert (r < V) by nra. assert (VP : 0 < V) by nra.
    assert (G : 2 * s / V <= V - r). { apply Rmult_le_reg_r with V; auto. unfold Rdiv. rewrite Rmult_assoc, Rinv_l by lra. nra. }
    set (e := sq I0 + sq R0) in *. assert (EN : 0 <= e) by (unfold e; assert (T1 := sq_nonneg I0); assert (T2 := sq_nonneg R0); lra).
    assert (G2 : 2 * s / V * e <= P). { apply Rle_trans with ((V - r) * e); [apply Rmult_le_compat_r; auto|lra]. }
    replace e with (V / (2 * s) * (2 * s / V * e)) by (field; lra). apply Rmult_le_compat_l; auto.
    apply Rlt_le, Rdiv_lt_0_compat; lra.
  Qed.
End OneFrequency.

(** ** C88 *)
(** the records' energy, each record counted with the weight of its gauge *)
Definition weighted_energy (w : list R) (sigs : list (list R)) : R := Rsum (map2 (fun v s => v * energy s) w sigs).

Lemma accepted_wpos t sigs x w : accepted t sigs x w -> (forall v, In v w -> 0 <= v) -> forall j, (j < length x)%nat -> 0 <= wof w j.
Proof. intros HA Hp j Hj. apply Hp, nth_In. rewrite (acc_w _ _ _ _ HA), <- (acc_x _ _ _ _ HA). auto. Qed.
Lemma W_pos t sigs x w : accepted t sigs x w -> 0 < Rsum w.
Proof. intros HA. assert (T := acc_sum _ _ _ _ HA). lra. Qed.
Lemma half_bound n Y m : (0 < n)%nat -> (m <= n / 2)%nat -> sq (coef (back n Y) m) <= sq (Y m).
Proof.
  intros Hn Hm. rewrite coef_back by auto. destruct (Nat.eqb m 0 || Nat.eqb (2 * m) n); [|lra].
  unfold sq. cbn. assert (T := Rle_0_sqr (snd (Y m))). unfold Rsqr in T. lra.
Qed.
Lemma sq_Cconj z : sq (Cconj z) = sq z.
Proof. unfold sq, Cconj. cbn. ring. Qed.

(** Every retained frequency: the squared amplitudes of the two parts together are at most Sum(w) / (2 separation) times the weighted
    sum of the squared amplitudes at the gauges *)
Theorem C88_per_frequency (t : list R) (sigs : list (list R)) (x w : list R) (h detLim : R) (k : nat -> R) :
  accepted t sigs x w -> (forall v, In v w -> 0 <= v) -> 0 < h -> 0 <= detLim -> wave_numbers t h k ->
  exists i r, decompose_linear_ZS (N:=NX) (F t) (matrix (length t) sigs) (Fin h) (F x) (F w) (Fin detLim) = Ok (F i, F r)
    /\ forall m, (m <= length t / 2)%nat -> retained detLim w x (k m) ->
         0 < separation w x (k m)
         /\ sq (coef i m) + sq (coef r m)
            <= Rsum w / (2 * separation w x (k m)) * RS (length x) (fun j => nth j w 0 * sq (gauge sigs m j)).
Proof.
  intros HA Hp Hh HL HK. assert (Hn : (2 <= length t)%nat) by apply (acc_axis _ _ _ _ HA). assert (WP := accepted_wpos _ _ _ _ HA Hp).
  eexists _, _. split; [apply decompose_F; auto|]. intros m Hm HR. rewrite (wn_eq t h k m) in * by auto.
  assert (S := ret_sep _ _ _ _ HL HR). assert (SN := sep_nonneg (wof w) (dist x) (wavenr t h m) (length x) WP).
  assert (SE := sepR_eq w x (wavenr t h m)). unfold sepR in SE. split; [rewrite <- SE; lra|].
  assert (B := sol_bound (wof w) (dist x) (DecompProps.amp sigs m) (wavenr t h m) (length x) WP S). rewrite RS_wof, SE in B.
  2:{ rewrite (acc_w _ _ _ _ HA), <- (acc_x _ _ _ _ HA). auto. }
  assert (B1 := half_bound (length t) (Yi t h x w detLim sigs) m ltac:(lia) Hm).
  assert (B2 := half_bound (length t) (Yr t h x w detLim sigs) m ltac:(lia) Hm).
  rewrite Yi_ret in B1 by auto. rewrite Yr_ret in B2 by auto. eapply Rle_trans; [apply Rplus_le_compat; [exact B1|exact B2]|exact B].
Qed.

(** The whole records: with a positive detLim the two parts together have at most Sum(w) / (2 detLim) times the weighted energy of
    the records *)
Theorem C88_energy_bounded (t : list R) (sigs : list (list R)) (x w : list R) (h detLim : R) :
  accepted t sigs x w -> (forall v, In v w -> 0 <= v) -> 0 < h -> 0 < detLim ->
  exists i r, decompose_linear_ZS (N:=NX) (F t) (matrix (length t) sigs) (Fin h) (F x) (F w) (Fin detLim) = Ok (F i, F r)
    /\ length i = length t /\ length r = length t
    /\ energy i + energy r <= Rsum w / (2 * detLim) * weighted_energy w sigs.
Proof.
  intros HA Hp Hh HL. assert (Hn : (2 <= length t)%nat) by apply (acc_axis _ _ _ _ HA). assert (WP := accepted_wpos _ _ _ _ HA Hp).
  assert (Lw : length w = length x) by (destruct HA; lia). assert (Ls : length sigs = length x) by (destruct HA; lia).
  destruct (C88_per_frequency t sigs x w h detLim (wavenr t h) HA Hp Hh ltac:(lra) (wn_exists t h Hh)) as (i & r & E & B).
  assert (E' := decompose_F t sigs x w h detLim HA Hh ltac:(lra)). rewrite E in E'. apply Ok_inj in E'. injection E' as Ei Er. apply F_inj in Ei, Er.
  assert (Li : length i = length t) by (rewrite Ei; apply back_length). assert (Lr : length r = length t) by (rewrite Er; apply back_length).
  exists i, r. split; [exact E|]. split; [auto|]. split; [auto|].
  set (c := Rsum w / (2 * detLim)). assert (Hsum := W_pos _ _ _ _ HA). assert (Hc : 0 < c) by (apply Rdiv_lt_0_compat; lra).
  assert (PN : forall m, 0 <= RS (length x) (fun j => nth j w 0 * sq (gauge sigs m j))).
  { intros m. apply RS_nonneg. intros j Hj. apply Rmult_le_pos; [apply (WP j Hj)|apply sq_nonneg]. }
  assert (H1 : forall m, (m <= length t / 2)%nat -> sq (coef i m) + sq (coef r m) <= c * RS (length x) (fun j => nth j w 0 * sq (gauge sigs m j))).
  { intros m Hm. destruct (Rlt_dec detLim (Rabs (separation w x (wavenr t h m)))) as [D|D].
    - destruct (B m Hm D) as [S1 B1]. rewrite (Rabs_pos_eq _ (Rlt_le _ _ S1)) in D. eapply Rle_trans; [exact B1|]. apply Rmult_le_compat_r; auto.
      unfold c, Rdiv. apply Rmult_le_compat_l; [lra|]. apply Rinv_le_contravar; lra.
    - destruct (Y_not t h x w detLim sigs m D) as [Z1 Z2]. rewrite Ei, Er.
      assert (B1 := half_bound (length t) (Yi t h x w detLim sigs) m ltac:(lia) Hm).
      assert (B2 := half_bound (length t) (Yr t h x w detLim sigs) m ltac:(lia) Hm). rewrite Z1 in B1. rewrite Z2 in B2.
      assert (Z0 : sq (RtoC 0) = 0) by (unfold sq; cbn; ring). rewrite Z0 in *. specialize (PN m).
      assert (0 <= c * RS (length x) (fun j => nth j w 0 * sq (gauge sigs m j))) by (apply Rmult_le_pos; lra). lra. }
  assert (H2 : forall m, (m < length t)%nat -> sq (coef i m) + sq (coef r m) <= c * RS (length x) (fun j => nth j w 0 * sq (gauge sigs m j))).
  { intros m Hm. assert (Hn2 : (length t <= 2 * (length t / 2) + 1)%nat) by (assert (Q := Nat.mul_succ_div_gt (length t) 2 ltac:(lia)); lia).
    destruct (Nat.le_gt_cases m (length t / 2)); [auto|].
    assert (HH : forall z, length z = length t -> sq (coef z m) = sq (coef z (length t - m))).
    { intros z Lz. assert (T := coef_hermitian z (length t - m) ltac:(lia) ltac:(lia)). rewrite Lz in T.
      replace (length t - (length t - m))%nat with m in T by lia. rewrite T. apply sq_Cconj. }
    rewrite !HH by auto. rewrite (RS_ext _ _ (fun j => nth j w 0 * sq (gauge sigs (length t - m) j))); [apply H1; lia|].
    intros j Hj. unfold gauge. rewrite HH; auto. apply (acc_sig _ _ _ _ HA), nth_In. lia. }
  assert (EC : forall z, length z = length t -> INR (length t) * energy z = RS (length t) (fun m => sq (coef z m))).
  { intros z Lz. rewrite <- Lz. apply energy_coef. intros ->. cbn in Lz. lia. }
  assert (NP : 0 < INR (length t)) by (apply lt_0_INR; lia). apply Rmult_le_reg_l with (INR (length t)); auto.
  rewrite Rmult_plus_distr_l, !EC, <- RS_plus by auto. eapply Rle_trans; [apply RS_le, H2|]. rewrite RS_scal, RS_swap.
  assert (WE : weighted_energy w sigs = RS (length x) (fun j => nth j w 0 * energy (nth j sigs []))).
  { unfold weighted_energy. rewrite Rsum_RS, map2_length, Lw, Ls, Nat.min_id. apply RS_ext. intros j Hj. apply (map2_nth (fun v s => v * energy s)); lia. }
  rewrite WE. rewrite (RS_ext (length x) _ (fun j => INR (length t) * (nth j w 0 * energy (nth j sigs [])))).
  - rewrite RS_scal. apply Req_le. ring.
  - intros j Hj. rewrite RS_scal. unfold gauge. rewrite <- EC; [ring|]. apply (acc_sig _ _ _ _ HA), nth_In. lia.
Qed.

(** Errors e in the records change the two parts by no more than that *)
Theorem C88_noise (t : list R) (sigs noise : list (list R)) (x w : list R) (h detLim : R) :
  accepted t sigs x w -> accepted t noise x w -> (forall v, In v w -> 0 <= v) -> 0 < h -> 0 < detLim ->
  exists i r i' r',
    decompose_linear_ZS (N:=NX) (F t) (matrix (length t) sigs) (Fin h) (F x) (F w) (Fin detLim) = Ok (F i, F r)
    /\ decompose_linear_ZS (N:=NX) (F t) (matrix (length t) (map2 plus2 sigs noise)) (Fin h) (F x) (F w) (Fin detLim) = Ok (F i', F r')
    /\ energy (minus2 i' i) + energy (minus2 r' r) <= Rsum w / (2 * detLim) * weighted_energy w noise.
Proof.
  intros A1 A2 Hp Hh HL. destruct (C46_linear t sigs noise x w h detLim 1 1 A1 A2 Hh ltac:(lra)) as (i & r & i2 & r2 & E1 & E2 & E3).
  destruct (C88_energy_bounded t noise x w h detLim A2 Hp Hh HL) as (i3 & r3 & E4 & Li & Lr & B).
  rewrite E2 in E4. apply Ok_inj in E4. injection E4 as Q1 Q2. apply F_inj in Q1, Q2. subst i3 r3.
  assert (E1' := decompose_F t sigs x w h detLim A1 Hh ltac:(lra)). rewrite E1 in E1'. apply Ok_inj in E1'. injection E1' as Q1 Q2. apply F_inj in Q1, Q2.
  assert (L1 : length i = length t) by (rewrite Q1; apply back_length). assert (L2 : length r = length t) by (rewrite Q2; apply back_length). clear Q1 Q2.
  assert (LC : forall u v, length u = length v -> lincomb 1 1 u v = plus2 u v).
  { intros u v Huv. unfold lincomb, plus2. apply (nth_ext' _ _ 0); [rewrite !map2_length; auto|]. intros l Hl. rewrite map2_length in Hl.
    rewrite !(map2_nth _ _ _ l 0 0 0) by lia. ring. }
  exists i, r, (lincomb 1 1 i i2), (lincomb 1 1 r r2). split; [exact E1|]. split.
  - rewrite <- E3. f_equal. f_equal. apply (nth_ext' _ _ []); [rewrite !map2_length; auto|]. intros j Hj. rewrite map2_length in Hj.
    destruct A1, A2. rewrite !(map2_nth _ _ _ j [] [] []) by lia. symmetry. apply LC. transitivity (length t); [|symmetry]; [apply acc_sig|apply acc_sig0]; apply nth_In; lia.
  - assert (MC : forall u v, length u = length v -> minus2 (lincomb 1 1 u v) u = v).
    { intros u v Huv. rewrite LC by auto. unfold minus2, plus2. apply (nth_ext' _ _ 0); [rewrite !map2_length; lia|]. intros l Hl. rewrite !map2_length in Hl.
      rewrite !(map2_nth _ _ _ l 0 0 0) by (rewrite ?map2_length; lia). ring. }
    rewrite !MC by lia. exact B.
Qed.

(** Without a limit on the determinant there is no such bound: however small the records, the parts can be as large as one likes.
    Gauges d apart record  cos(W t - k x) - cos(W t + k x),  which is small everywhere when d is small *)
Theorem C88_limit_needed (t0 dt h c : R) (n : nat) : 0 < dt -> (3 <= n)%nat -> 0 < h -> 0 < c ->
  exists (sigs : list (list R)) (x : list R) (i r : list R), let t := axis t0 dt n in let w := [1; 1] in
    accepted t sigs x w
    /\ decompose_linear_ZS (N:=NX) (F t) (matrix (length t) sigs) (Fin h) (F x) (F w) (Fin 0) = Ok (F i, F r)
    /\ c * weighted_energy w sigs < energy i + energy r.
Proof.
  intros Hdt Hn Hh Hc. set (t := axis t0 dt n). assert (Lt : length t = n) by apply axis_length.
  assert (G : good_axis t) by (apply axis_good; [lia|lra]). set (k := wavenr t h). assert (K := wavenr_pos t h 1 G Hh ltac:(lia)). fold k in K.
  assert (NP : 3 <= INR n) by (replace 3 with (INR 3) by (cbn; ring); apply le_INR; auto).
  assert (DP : 0 < 1 + 4 * INR n * c) by nra.
  set (de := / (1 + 4 * INR n * c)). assert (D0 : 0 < de) by (apply Rinv_0_lt_compat; auto).
  assert (D1 : de <= 1). { unfold de. rewrite <- Rinv_1. apply Rinv_le_contravar; nra. }
  assert (D2 : 4 * INR n * c * de < 1). { apply Rmult_lt_reg_r with (1 + 4 * INR n * c); auto. unfold de. rewrite Rmult_assoc, Rinv_l by lra. nra. }
  assert (PI3 : 3 < PI) by (assert (T := PI_4); assert (T2 := PI2_3_2); lra).
  assert (SP : 0 < sin de) by (apply sin_gt_0; lra).
  assert (SL : sin de <= de) by (apply Rlt_le, sin_lt_x; auto).
  set (om := 2 * PI * (INR 1 / (INR n * dt))). set (ph := - (om * t0)). set (x := [0; de / k 1%nat]).
  set (field := wave_field n 1 dt k (fun _ => 1) (fun _ => ph) (fun _ => -1) (fun _ => ph)).
  assert (XP : 0 < de / k 1%nat) by (apply Rdiv_lt_0_compat; auto).
  assert (FE : forall A P B Q time pos, wave_field n 1 dt k A P B Q time pos
    = A 1%nat * cos (om * time - k 1%nat * pos + P 1%nat) + B 1%nat * cos (om * time + k 1%nat * pos + Q 1%nat)).
  { intros. unfold wave_field. rewrite RS_S, RS_0. cbv zeta. fold om. ring. }
  assert (HA : accepted t (map (fun X => map (fun time => field time (X - nth 0 x 0)) t) x) x [1; 1]).
  { constructor; auto; try (cbn; lia).
    - intros s Hs. apply in_map_iff in Hs. destruct Hs as (v & <- & _). apply map_length.
    - intros i j Hij. cbn [length x] in Hij. assert (i = 0%nat /\ j = 1%nat) as [-> ->] by lia. cbn [nth x]. lra.
    - left. intros v [<-|[<-|[]]]; lra.
    - cbn. lra. }
  assert (E := C46_plane_waves t0 dt n 1 x [1; 1] h 0 k (fun _ => 1) (fun _ => ph) (fun _ => -1) (fun _ => ph) HA Hdt ltac:(lia) Hh ltac:(lra) (wn_exists t h Hh)).
  fold t field in E. cbv zeta in E.
  eexists _, x, _, _. cbv zeta. split; [exact HA|]. split.
  { apply E. intros m Hm. assert (m = 1%nat) as -> by lia. unfold retained, separation. cbn [length x]. rewrite !RS_S, !RS_0. unfold x at 1 2. cbn [nth].
    replace (k 1%nat * (de / k 1%nat - 0)) with de by (field; lra). unfold Rsqr. assert (0 < sin de * sin de) by (apply Rmult_lt_0_compat; auto). rewrite Rabs_pos_eq; lra. }
  assert (EN : forall z, 0 <= energy z).
  { intros z. unfold energy. rewrite (Rsum_map_RS _ _ 0). apply RS_nonneg. intros. apply pow2_ge_0. }
  set (inc := map _ t). set (ref := map _ t).
  assert (B1 : 1 <= energy inc).
  { unfold energy. rewrite (Rsum_map_RS _ _ 0). unfold inc at 1. rewrite map_length, Lt.
    eapply Rle_trans; [|apply (RS_term n _ 0); [lia|intros; apply pow2_ge_0]].
    unfold inc. rewrite (nth_indep _ 0 (wave_field n 1 dt k (fun _ => 1) (fun _ => ph) (fun _ => 0) (fun _ => ph) 0 0)) by (rewrite map_length; lia).
    rewrite (map_nth (fun time => wave_field n 1 dt k (fun _ => 1) (fun _ => ph) (fun _ => 0) (fun _ => ph) time 0)). unfold t. rewrite axis_nth by lia.
    rewrite FE. unfold ph. cbn [INR]. replace (om * (t0 + 0 * dt) - k 1%nat * 0 + - (om * t0)) with 0 by ring. rewrite cos_0. nra. }
  assert (B2 := EN ref). apply Rlt_le_trans with 1; [|lra].
  unfold weighted_energy. cbn [map x map2 nth]. set (g0 := map _ t). set (g1 := map _ t). cbn [Rsum fold_right map2].
  assert (Z0 : energy g0 = 0).
  { unfold energy. rewrite (Rsum_map_RS _ _ 0). apply RS_zero. intros l Hl. unfold g0 in *. rewrite map_length in Hl.
    rewrite (nth_indep _ 0 (field 0 (0 - 0))) by (rewrite map_length; lia). rewrite (map_nth (fun time => field time (0 - 0))).
    unfold field. rewrite FE. rewrite Rminus_0_r, !Rmult_0_r, Rminus_0_r, Rplus_0_r. ring. }
  assert (Z1 : energy g1 <= INR n * (4 * (de * de))).
  { unfold energy. rewrite (Rsum_map_RS _ _ 0). unfold g1 at 1. rewrite map_length, Lt. rewrite <- RS_const. apply RS_le. intros l Hl.
    unfold g1. rewrite (nth_indep _ 0 (field 0 (de / k 1%nat - 0))) by (rewrite map_length; lia). rewrite (map_nth (fun time => field time (de / k 1%nat - 0))).
    unfold field. rewrite FE. replace (k 1%nat * (de / k 1%nat - 0)) with de by (field; lra). set (q := om * nth l t 0).
    replace (q - de + ph) with ((q + ph) - de) by ring. replace (q + de + ph) with ((q + ph) + de) by ring. set (qp := q + ph).
    rewrite cos_minus, cos_plus. assert (T := sin2_cos2 qp). unfold Rsqr in T. set (a := sin qp) in *. set (b := cos qp) in *. clearbody a b.
    replace ((1 * (b * cos de + a * sin de) + -1 * (b * cos de - a * sin de)) ^ 2) with (4 * ((a * a) * (sin de * sin de))) by ring.
    apply Rmult_le_compat_l; [lra|]. assert (a * a <= 1) by nra. assert (0 <= a * a) by nra. assert (sin de * sin de <= de * de) by nra. nra. }
  rewrite Z0. assert (c * (1 * energy g1) <= c * (INR n * (4 * (de * de)))) by (apply Rmult_le_compat_l; lra).
  replace (c * (1 * 0 + (1 * energy g1 + 0))) with (c * (1 * energy g1)) by ring.
  apply Rle_lt_trans with (4 * INR n * c * de); [|auto]. eapply Rle_trans; [exact H|].
  replace (c * (INR n * (4 * (de * de)))) with (4 * INR n * c * de * de) by ring.
  rewrite <- (Rmult_1_r (4 * INR n * c * de)) at 2. apply Rmult_le_compat_l; auto. apply Rmult_le_pos; [|lra]. nra.
Qed.

(** two gauges a quarter of a wave length apart, with noise at both *)
Example C88_witness : exists sigs noise x, accepted (axis 0 1 4) sigs x [1; 1] /\ accepted (axis 0 1 4) noise x [1; 1]
  /\ (forall v, In v [1; 1] -> 0 <= v) /\ retained (125 / 1000) [1; 1] x (wavenr (axis 0 1 4) 5 1) /\ 0 < weighted_energy [1; 1] noise.
Proof.
  destruct C46_witness as (x & k & HA & HK & HR). cbv zeta in HA.
  assert (Lx : length x = 2%nat) by (destruct HA; cbn [length] in *; rewrite map_length in *; lia).
  destruct x as [|x0 [|x1 [|]]]; try discriminate. cbn [map] in HA.
  eexists _, [[1; 0; 0; 0]; [0; 1; 0; 0]], [x0; x1]. split; [exact HA|]. split; [|split; [|split]].
  - destruct HA. constructor; auto; try (cbn; lia). intros s [<-|[<-|[]]]; reflexivity.
  - intros v [<-|[<-|[]]]; lra.
  - rewrite <- (wn_eq (axis 0 1 4) 5 k 1); [apply HR; lia|lra|exact HK|]. rewrite axis_length. cbn. lia.
  - unfold weighted_energy, energy, Rsum. cbn. lra.
Qed.
