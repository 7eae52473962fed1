(** * The two published special cases named in the documentation (core_wave_decomposition.py:33-36): C68 *)

From Coq Require Import ZArith Reals Lra Lia List Bool.
From Coquelicot Require Import Complex.
From Verif Require Import Num XR Engine Cpx SpectralModel DisperModel DecompModel Spec XRFacts DFT FourierSpec RSum EngineProps
  TimeProps TimeProps3 FourierFacts FourierProps DisperProps DecompSpec DecompProps DecompClaims SpecSym DecompSym.
Import ListNotations.
Open Scope R_scope.

(** ** Specification: the formulas of the two papers *)
(** cosine and sine amplitude of a record at its m-th Fourier frequency (0 < m < n/2): the record contains
    A cos(2 pi m j/n) + B sin(2 pi m j/n) *)
Definition cos_amp (x : list R) (m : nat) : R :=
  2 / INR (length x) * RS (length x) (fun j => nth j x 0 * cos (2 * PI * INR (j * m) / INR (length x))).
Definition sin_amp (x : list R) (m : nat) : R :=
  2 / INR (length x) * RS (length x) (fun j => nth j x 0 * sin (2 * PI * INR (j * m) / INR (length x))).
(** the amplitude of the component *)
Definition amplitude (x : list R) (m : nat) : R := sqrt (cos_amp x m ^ 2 + sin_amp x m ^ 2).
(** Goda and Suzuki (1976), eq. 5, with kl = wave number times gauge distance *)
Definition goda_incident (A1 B1 A2 B2 kl : R) : R :=
  / (2 * Rabs (sin kl)) * sqrt ((A2 - A1 * cos kl - B1 * sin kl) ^ 2 + (B2 + A1 * sin kl - B1 * cos kl) ^ 2).
Definition goda_reflected (A1 B1 A2 B2 kl : R) : R :=
  / (2 * Rabs (sin kl)) * sqrt ((A2 - A1 * cos kl + B1 * sin kl) ^ 2 + (B2 - A1 * sin kl - B1 * cos kl) ^ 2).
(** Mansard and Funke (1980), eqs. 21-24, with b, g the wave number times the distance of gauge 2, 3 to gauge 1 *)
Definition MF_D b g := 2 * (Rsqr (sin b) + Rsqr (sin g) + Rsqr (sin (g - b))).
Definition MF_R1 b g := Rsqr (sin b) + Rsqr (sin g).
Definition MF_Q1 b g := sin b * cos b + sin g * cos g.
Definition MF_R2 b g := sin g * sin (g - b).
Definition MF_Q2 b g := sin g * cos (g - b) - 2 * sin b.
Definition MF_R3 b g := - sin b * sin (g - b).
Definition MF_Q3 b g := sin b * cos (g - b) - 2 * sin g.
(** the papers' transform has the kernel e^(+i w t), numpy's e^(-i w t): the paper's B is the conjugate of the coefficient here,
    which turns the Q terms of the incident wave from + to - *)
Definition cplx (a b : R) : C := (a, b).
Definition MF_incident (b g : R) (X1 X2 X3 : C) : C :=
  (RtoC (/ MF_D b g) * (X1 * cplx (MF_R1 b g) (- MF_Q1 b g) + X2 * cplx (MF_R2 b g) (- MF_Q2 b g) + X3 * cplx (MF_R3 b g) (- MF_Q3 b g)))%C.
Definition MF_reflected (b g : R) (X1 X2 X3 : C) : C :=
  (RtoC (/ MF_D b g) * (X1 * cplx (MF_R1 b g) (MF_Q1 b g) + X2 * cplx (MF_R2 b g) (MF_Q2 b g) + X3 * cplx (MF_R3 b g) (MF_Q3 b g)))%C.

(** ** Proofs *)
Lemma amp_coef x m : cos_amp x m = 2 / INR (length x) * fst (coef x m) /\ sin_amp x m = - (2 / INR (length x) * snd (coef x m)).
Proof.
  unfold cos_amp, sin_amp, coef. rewrite Csum_fst, Csum_snd. split.
  - f_equal. apply RS_ext. intros j Hj. cbn. rewrite cos_neg. ring.
  - rewrite <- Ropp_mult_distr_r_reverse. f_equal. replace (- RS (length x) (fun k => snd (RtoC (nth k x 0) * ei (- (2 * PI * INR (k * m) / INR (length x))))%C))
      with (-1 * RS (length x) (fun k => snd (RtoC (nth k x 0) * ei (- (2 * PI * INR (k * m) / INR (length x))))%C)) by ring.
    rewrite <- RS_scal. apply RS_ext. intros j Hj. cbn. rewrite sin_neg. ring.
Qed.
Lemma amplitude_coef x m : amplitude x m = 2 / INR (length x) * Cmod (coef x m).
Proof.
  unfold amplitude. destruct (amp_coef x m) as [-> ->]. set (z := coef x m). unfold Cmod.
  assert (P : 0 <= 2 / INR (length x)). { destruct x as [|a l]; [cbn; unfold Rdiv; rewrite Rinv_0; lra|]. apply Rlt_le, Rdiv_lt_0_compat; [lra|apply lt_0_INR; cbn; lia]. }
  set (c := 2 / INR (length x)) in *. rewrite <- (sqrt_square c) at 3 by auto. rewrite <- sqrt_mult; [|nra|nra]. f_equal. ring.
Qed.
Lemma Cdiv_R z r : r <> 0 -> (z / RtoC r)%C = (fst z / r, snd z / r).
Proof. intros H. destruct z as [a b]. apply C_eq; cbn; field; auto. Qed.
Section Two.
  Variables (d : nat -> R) (X : nat -> C) (k : R).
  Hypothesis D0 : d 0%nat = 0.
  Let b := k * d 1%nat.
  Lemma sep_two : sep (fun _ => 1) d k 2 = Rsqr (sin b).
  Proof. unfold sep. rewrite !RS_S, !RS_0, D0, Rminus_0_r. fold b. ring. Qed.
  Lemma sol_two : sin b <> 0 ->
    solI (fun _ => 1) d X k 2 = (cplx 0 (/ (2 * sin b)) * (X 1%nat - X 0%nat * ei b))%C
    /\ solR (fun _ => 1) d X k 2 = (cplx 0 (- / (2 * sin b)) * (X 1%nat - X 0%nat * ei (- b)))%C.
  Proof.
    intros Hs. assert (R4 : -4 * Rsqr (sin b) <> 0) by (unfold Rsqr; nra).
    unfold solI, solR. rewrite det_real, sep_two. unfold a11, a22, b1, b2, W. rewrite !Csum_S, !RS_S, !Csum_0, !RS_0. rewrite !D0.
    replace (2 * k * d 1%nat) with (2 * b) by (unfold b; ring). fold b. rewrite !Rmult_0_r, Ropp_0, ei_0.
    rewrite !Cdiv_R by exact R4. unfold cplx.
    replace (cos (2 * b)) with (1 - 2 * sin b * sin b) by (rewrite cos_2a_sin; reflexivity).
    assert (Q : cos b * cos b = 1 - sin b * sin b) by (assert (Q := sin2_cos2 b); unfold Rsqr in Q; lra).
    unfold Rsqr in *. destruct (X 0%nat) as [p q], (X 1%nat) as [r s].
    split; apply C_eq; cbn; rewrite ?cos_neg, ?sin_neg, ?cos_2a_sin, ?sin_2a;
    set (S0 := sin b) in *; set (C0 := cos b) in *.
    all: field_simplify_eq; [|exact Hs].
    all: replace (C0 ^ 2) with (1 - S0 * S0) by (rewrite <- Q; ring); ring.
  Qed.
End Two.
Section Three.
  Variables (d : nat -> R) (X : nat -> C) (k : R).
  Hypothesis D0 : d 0%nat = 0.
  Let b := k * d 1%nat.
  Let g := k * d 2%nat.
  Lemma sep_three : sep (fun _ => 1) d k 3 = MF_D b g / 2.
  Proof.
    unfold sep, MF_D. rewrite !RS_S, !RS_0, D0, !Rminus_0_r. replace (k * (d 2%nat - d 1%nat)) with (g - b) by (unfold g, b; ring). fold b g. field.
  Qed.
  Lemma sol_three : MF_D b g <> 0 ->
    solI (fun _ => 1) d X k 3 = MF_incident b g (X 0%nat) (X 1%nat) (X 2%nat)
    /\ solR (fun _ => 1) d X k 3 = MF_reflected b g (X 0%nat) (X 1%nat) (X 2%nat).
  Proof.
    intros Hs. assert (R4 : -4 * (MF_D b g / 2) <> 0) by lra.
    unfold solI, solR. rewrite det_real, sep_three. unfold a11, a22, b1, b2, W. rewrite !Csum_S, !RS_S, !Csum_0, !RS_0. rewrite !D0.
    replace (2 * k * d 1%nat) with (2 * b) by (unfold b; ring). replace (2 * k * d 2%nat) with (2 * g) by (unfold g; ring). fold b g. rewrite !Rmult_0_r, Ropp_0, ei_0.
    rewrite !Cdiv_R by exact R4. unfold MF_incident, MF_reflected, cplx. set (D := MF_D b g) in *.
    unfold MF_R1, MF_R2, MF_R3, MF_Q1, MF_Q2, MF_Q3. clearbody D.
    assert (Qb : cos b * cos b = 1 - sin b * sin b) by (assert (Q := sin2_cos2 b); unfold Rsqr in Q; lra).
    assert (Qg : cos g * cos g = 1 - sin g * sin g) by (assert (Q := sin2_cos2 g); unfold Rsqr in Q; lra).
    rewrite sin_minus, cos_minus. unfold Rsqr. destruct (X 0%nat) as [p1 q1], (X 1%nat) as [p2 q2], (X 2%nat) as [p3 q3].
    split; apply C_eq; cbn; rewrite ?cos_neg, ?sin_neg, ?cos_2a_sin, ?sin_2a;
    set (S0 := sin b) in *; set (C0 := cos b) in *; set (S1 := sin g) in *; set (C1 := cos g) in *; clearbody S0 C0 S1 C1.
    all: field_simplify_eq; [|auto].
    all: assert (Qb' : C0 ^ 2 = 1 - S0 * S0) by (rewrite <- Qb; ring); assert (Qg' : C1 ^ 2 = 1 - S1 * S1) by (rewrite <- Qg; ring).
    all: rewrite ?Qb', ?Qg'.
    all: ring.
  Qed.
  (** the criterion of Auke-Process (core_wave_decomposition.py:60-66) *)
  Lemma auke L : L < sep (fun _ => 1) d k 3 <-> (Cmod (ei (2 * k * d 0%nat) + ei (2 * k * d 1%nat) + ei (2 * k * d 2%nat)) ^ 2 < 9 - 4 * L)%C.
  Proof.
    assert (E := det_real (fun _ => 1) d k 3). unfold det in E. rewrite a11_conj in E. apply (f_equal fst) in E.
    assert (A : a22 (fun _ => 1) d k 3 = (ei (2 * k * d 0%nat) + ei (2 * k * d 1%nat) + ei (2 * k * d 2%nat))%C).
    { unfold a22. rewrite !Csum_S, Csum_0. ring. }
    rewrite A in E. set (z := (_ + _ + _)%C) in *. unfold W in E. rewrite !RS_S, RS_0 in E.
    assert (M : Cmod z ^ 2 = fst z ^ 2 + snd z ^ 2) by (unfold Cmod; rewrite pow2_sqrt; [reflexivity|nra]).
    rewrite M. set (q := sep (fun _ => 1) d k 3) in *. clearbody q. clear A M. clearbody z. destruct z as [z1 z2]. cbn in E. cbn [fst snd]. split; intros; nra.
  Qed.
End Three.

Lemma sol_ext w w' d X k J : (forall j, (j < J)%nat -> w j = w' j) -> solI w d X k J = solI w' d X k J /\ solR w d X k J = solR w' d X k J.
Proof.
  intros H. unfold solI, solR, det, W. rewrite (RS_ext J w w') by auto.
  assert (E1 : a11 w d k J = a11 w' d k J) by (apply Csum_ext; intros; rewrite H by auto; reflexivity).
  assert (E2 : a22 w d k J = a22 w' d k J) by (apply Csum_ext; intros; rewrite H by auto; reflexivity).
  assert (E3 : b1 w d X k J = b1 w' d X k J) by (apply Csum_ext; intros; rewrite H by auto; reflexivity).
  assert (E4 : b2 w d X k J = b2 w' d X k J) by (apply Csum_ext; intros; rewrite H by auto; reflexivity).
  rewrite E1, E2, E3, E4. auto.
Qed.
Lemma Cmod_i r : Cmod (cplx 0 r) = Rabs r.
Proof. unfold Cmod, cplx. cbn [fst snd]. replace (0 ^ 2 + r ^ 2) with (Rsqr r) by (unfold Rsqr; ring). apply sqrt_Rsqr_abs. Qed.
Lemma goda_scaled c p q S : 0 <= c -> c * (Rabs (/ (2 * S)) * sqrt (p ^ 2 + q ^ 2)) = / (2 * Rabs S) * sqrt ((c * p) ^ 2 + (c * q) ^ 2).
Proof.
  intros Hc. replace ((c * p) ^ 2 + (c * q) ^ 2) with (c * c * (p ^ 2 + q ^ 2)) by ring. rewrite sqrt_mult by nra. rewrite sqrt_square by auto.
  rewrite Rabs_inv, Rabs_mult, (Rabs_pos_eq 2) by lra. ring.
Qed.

(** Nloc = 2 and w_loc = [1 1]: the method of Goda and Suzuki *)
Theorem C68_goda_suzuki (t s1 s2 x : list R) (h detLim : R) (k : nat -> R) :
  accepted t [s1; s2] x [1; 1] -> 0 < h -> 0 <= detLim -> wave_numbers t h k ->
  exists i r, decompose_linear_ZS (N:=NX) (F t) (matrix (length t) [s1; s2]) (Fin h) (F x) (F [1; 1]) (Fin detLim) = Ok (F i, F r)
    /\ forall m, (2 * m < length t)%nat -> let kl := k m * (nth 1 x 0 - nth 0 x 0) in
       (detLim < Rsqr (sin kl) ->
          amplitude i m = goda_incident (cos_amp s1 m) (sin_amp s1 m) (cos_amp s2 m) (sin_amp s2 m) kl
          /\ amplitude r m = goda_reflected (cos_amp s1 m) (sin_amp s1 m) (cos_amp s2 m) (sin_amp s2 m) kl)
       /\ (Rsqr (sin kl) <= detLim -> amplitude i m = 0 /\ amplitude r m = 0).
Proof.
  intros HA Hh HL HK. assert (Hn : (2 <= length t)%nat) by apply (acc_axis _ _ _ _ HA).
  assert (L1 : length s1 = length t) by (apply (acc_sig _ _ _ _ HA); left; auto).
  assert (L2 : length s2 = length t) by (apply (acc_sig _ _ _ _ HA); right; left; auto).
  assert (Lx : length x = 2%nat) by apply (acc_x _ _ _ _ HA).
  eexists _, _. split; [apply decompose_F; auto|]. intros m Hm kl.
  assert (Hm2 : (m <= length t / 2)%nat) by (apply Nat.div_le_lower_bound; lia).
  rewrite !amplitude_coef, !back_length, !coef_back by lia.
  replace (Nat.eqb (2 * m) (length t)) with false by (symmetry; apply Nat.eqb_neq; lia). rewrite orb_false_r.
  assert (Sp : separation [1; 1] x (k m) = Rsqr (sin kl)).
  { unfold separation. rewrite Lx, !RS_S, !RS_0. cbn [nth]. fold kl. ring. }
  assert (Kp : detLim < Rsqr (sin kl) <-> retained detLim [1; 1] x (wavenr t h m)).
  { unfold retained. rewrite <- (wn_eq t h k m) by auto. rewrite Sp, Rabs_pos_eq by apply Rle_0_sqr. reflexivity. }
  assert (C0 : Cmod (RtoC 0) = 0) by (rewrite Cmod_R, Rabs_R0; reflexivity).
  split; intros Q.
  - assert (Hs : sin kl <> 0) by (intros E; rewrite E in Q; unfold Rsqr in Q; lra).
    assert (M0 : m <> 0%nat). { intros E. apply Hs. unfold kl. rewrite (wn_eq t h k m) by auto. rewrite E, wavenr_0, Rmult_0_l. apply sin_0. }
    replace (Nat.eqb m 0) with false by (symmetry; apply Nat.eqb_neq; auto).
    rewrite Yi_ret, Yr_ret by (apply Kp; auto). rewrite Lx. rewrite <- (wn_eq t h k m) by auto.
    destruct (sol_ext (wof [1; 1]) (fun _ => 1) (dist x) (amp [s1; s2] m) (k m) 2) as [-> ->]; [intros [|[|]] Hj; try lia; reflexivity|].
    destruct (sol_two (dist x) (amp [s1; s2] m) (k m) ltac:(unfold dist; ring)) as [-> ->]; [exact Hs|].
    change (k m * dist x 1) with kl. change (amp [s1; s2] m 0) with (coef s1 m). change (amp [s1; s2] m 1) with (coef s2 m).
    rewrite !Cmod_mult, !Cmod_i, Rabs_Ropp. unfold Cmod. unfold goda_incident, goda_reflected.
    destruct (amp_coef s1 m) as [-> ->]. destruct (amp_coef s2 m) as [-> ->]. rewrite L1, L2.
    assert (P : 0 <= 2 / INR (length t)) by (apply Rlt_le, Rdiv_lt_0_compat; [lra|apply lt_0_INR; lia]).
    rewrite !goda_scaled by exact P.
    destruct (coef s1 m) as [p1 q1], (coef s2 m) as [p2 q2]. cbn [fst snd ei Cmult Cminus Cplus Copp]. rewrite cos_neg, sin_neg.
    split; do 2 f_equal; ring.
  - destruct (Y_not t h x [1; 1] detLim [s1; s2] m) as [-> ->]; [intros E; apply Kp in E; lra|]. cbn [fst RtoC].
    destruct (Nat.eqb m 0); rewrite C0; split; ring.
Qed.

(** Nloc = 3 and w_loc = [1 1 1]: the method of Mansard and Funke, with the denominator threshold of Auke-Process *)
Theorem C68_mansard_funke (t s1 s2 s3 x : list R) (h detLim : R) (k : nat -> R) :
  accepted t [s1; s2; s3] x [1; 1; 1] -> 0 < h -> 0 <= detLim -> wave_numbers t h k ->
  exists i r, decompose_linear_ZS (N:=NX) (F t) (matrix (length t) [s1; s2; s3]) (Fin h) (F x) (F [1; 1; 1]) (Fin detLim) = Ok (F i, F r)
    /\ length i = length t /\ length r = length t
    /\ forall m, (2 * m < length t)%nat ->
       let b := k m * (nth 1 x 0 - nth 0 x 0) in let g := k m * (nth 2 x 0 - nth 0 x 0) in
       let kept := Cmod (1 + ei (2 * b) + ei (2 * g))%C ^ 2 < 9 - 4 * detLim in
       (kept -> coef i m = MF_incident b g (coef s1 m) (coef s2 m) (coef s3 m)
             /\ coef r m = MF_reflected b g (coef s1 m) (coef s2 m) (coef s3 m))
       /\ (~ kept -> coef i m = RtoC 0 /\ coef r m = RtoC 0).
Proof.
  intros HA Hh HL HK. assert (Hn : (2 <= length t)%nat) by apply (acc_axis _ _ _ _ HA).
  assert (Lx : length x = 3%nat) by apply (acc_x _ _ _ _ HA).
  eexists _, _. split; [apply decompose_F; auto|]. rewrite !back_length. do 2 (split; [auto|]). intros m Hm b g kept.
  assert (Hm2 : (m <= length t / 2)%nat) by (apply Nat.div_le_lower_bound; lia).
  rewrite !coef_back by lia.
  replace (Nat.eqb (2 * m) (length t)) with false by (symmetry; apply Nat.eqb_neq; lia). rewrite orb_false_r.
  assert (D0 : dist x 0 = 0) by (unfold dist; ring).
  assert (S3 := sep_three (dist x) (k m) D0). change (k m * dist x 1) with b in S3. change (k m * dist x 2) with g in S3.
  assert (Sp : separation [1; 1; 1] x (k m) = sep (fun _ => 1) (dist x) (k m) 3).
  { rewrite <- sepR_eq. unfold sepR, sep. rewrite Lx. apply RS_ext. intros i Hi. apply RS_ext. intros j Hj.
    destruct i as [|[|[|]]], j as [|[|[|]]]; try lia; reflexivity. }
  assert (Pos : 0 <= MF_D b g) by (unfold MF_D; assert (A1 := Rle_0_sqr (sin b)); assert (A2 := Rle_0_sqr (sin g)); assert (A3 := Rle_0_sqr (sin (g - b))); lra).
  assert (Kp : kept <-> retained detLim [1; 1; 1] x (wavenr t h m)).
  { unfold retained. rewrite <- (wn_eq t h k m) by auto. rewrite Sp, Rabs_pos_eq by lra. rewrite (auke (dist x) (k m)).
    rewrite D0, Rmult_0_r, ei_0. unfold kept. replace (2 * k m * dist x 1) with (2 * b) by (unfold b, dist; ring).
    replace (2 * k m * dist x 2) with (2 * g) by (unfold g, dist; ring). reflexivity. }
  split; intros Q.
  - assert (HR := proj1 Kp Q). assert (Hs : MF_D b g <> 0). { unfold retained in HR. rewrite <- (wn_eq t h k m) in HR by auto. rewrite Sp, Rabs_pos_eq in HR by lra. lra. }
    assert (M0 : m <> 0%nat). { intros E. apply (retained_0 detLim [1; 1; 1] x HL). rewrite <- (wavenr_0 t h), <- E. exact HR. }
    replace (Nat.eqb m 0) with false by (symmetry; apply Nat.eqb_neq; auto).
    rewrite Yi_ret, Yr_ret by auto. rewrite Lx. rewrite <- (wn_eq t h k m) by auto.
    destruct (sol_ext (wof [1; 1; 1]) (fun _ => 1) (dist x) (amp [s1; s2; s3] m) (k m) 3) as [-> ->]; [intros [|[|[|]]] Hj; try lia; reflexivity|].
    apply (sol_three (dist x) (amp [s1; s2; s3] m) (k m) D0 Hs).
  - destruct (Y_not t h x [1; 1; 1] detLim [s1; s2; s3] m) as [-> ->]; [intros E; apply Q, Kp, E|]. cbn [fst RtoC].
    destruct (Nat.eqb m 0); auto.
Qed.

(** two gauges a quarter, and three gauges an eighth of a wave length apart *)
Example C68_witness : exists x2 x3 k, wave_numbers (axis 0 1 4) 5 k
  /\ accepted (axis 0 1 4) [[1; 2; 0; -1]; [0; 3; 1; -2]] x2 [1; 1] /\ 125 / 1000 < Rsqr (sin (k 1%nat * (nth 1 x2 0 - nth 0 x2 0)))
  /\ accepted (axis 0 1 4) [[1; 2; 0; -1]; [0; 3; 1; -2]; [1; 1; -1; 0]] x3 [1; 1; 1]
  /\ Cmod (1 + ei (2 * (k 1%nat * (nth 1 x3 0 - nth 0 x3 0))) + ei (2 * (k 1%nat * (nth 2 x3 0 - nth 0 x3 0))))%C ^ 2 < 9 - 4 * (125 / 1000).
Proof.
  set (k := wavenr (axis 0 1 4) 5). assert (G : good_axis (axis 0 1 4)) by (apply axis_good; [lia|lra]).
  assert (K := wavenr_pos (axis 0 1 4) 5 1 G ltac:(lra) ltac:(lia)). fold k in K.
  assert (P := PI_RGT_0). assert (X : 0 < PI / 4 / k 1%nat) by (apply Rdiv_lt_0_compat; lra). set (q := PI / 4 / k 1%nat) in *.
  exists [0; 2 * q], [0; q; 2 * q], k. split; [apply wn_exists; lra|]. cbn [nth].
  replace (k 1%nat * (2 * q - 0)) with (PI / 2) by (unfold q; field; lra).
  replace (k 1%nat * (q - 0)) with (PI / 4) by (unfold q; field; lra).
  replace (2 * (PI / 4)) with (PI / 2) by field. replace (2 * (PI / 2)) with PI by field.
  split; [|split; [|split]].
  - constructor; auto; try (cbn; lia).
    + intros s [<-|[<-|[]]]; reflexivity.
    + intros i j Hij. cbn [length] in Hij. destruct i as [|], j as [|[|]]; try lia; cbn; lra.
    + right. intros v [<-|[<-|[]]]; lra.
    + cbn. lra.
  - rewrite sin_PI2. unfold Rsqr. lra.
  - constructor; auto; try (cbn; lia).
    + intros s [<-|[<-|[<-|[]]]]; reflexivity.
    + intros i j Hij. cbn [length] in Hij. destruct i as [|[|]], j as [|[|[|]]]; try lia; cbn; lra.
    + right. intros v [<-|[<-|[<-|[]]]]; lra.
    + cbn. lra.
  - unfold ei, Cmod. cbn [fst snd Cplus RtoC]. rewrite cos_PI2, sin_PI2, cos_PI, sin_PI. rewrite pow2_sqrt; nra.
Qed.
