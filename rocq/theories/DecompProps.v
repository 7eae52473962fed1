(** * decompose_linear_ZS: C46 - C48 *)

From Coq Require Import ZArith Reals Lra Lia List Bool.
From Coquelicot Require Import Complex.
From Verif Require Import Num XR Engine Cpx SpectralModel DisperModel DecompModel Spec XRFacts DFT FourierSpec RSum EngineProps
  TimeProps TimeProps3 FourierFacts FourierProps DisperProps DecompSpec.
Import ListNotations.
Open Scope R_scope.

(** ** Complex arithmetic *)
Lemma fc_opp a : copp (FC a) = FC (- a)%C. Proof. reflexivity. Qed.
Lemma sq_0 z : sq z = 0 -> z = RtoC 0.
Proof. intros H. destruct z as [a b]. unfold sq in H. cbn in H. apply C_eq; cbn; nra. Qed.
Lemma sq_nz z : z <> RtoC 0 -> sq z <> 0.
Proof. intros H E. apply H, sq_0, E. Qed.
Lemma sq_nonneg z : 0 <= sq z.
Proof. unfold sq. nra. Qed.
Lemma Cdiv_sq a b : sq b <> 0 -> (a / b)%C = (RtoC (/ sq b) * (a * Cconj b))%C.
Proof.
  intros H. destruct a as [a1 a2], b as [b1 b2]. unfold sq in *. cbn in H. assert (b1 * b1 + b2 * b2 <> 0) by exact H.
  assert (b1 * (b1 * 1) + b2 * (b2 * 1) <> 0) by (intros E; apply H0; lra).
  apply C_eq; cbn; field; auto.
Qed.
Lemma fc_div a b : b <> RtoC 0 -> cdiv (FC a) (FC b) = FC (a / b)%C.
Proof.
  intros H. apply sq_nz in H. unfold cdiv. rewrite fc_conj, fc_mul. unfold cre, cim. cbn [FC fst snd].
  rewrite !fin_mul, fin_add. change (fst b * fst b + snd b * snd b) with (sq b). rewrite fc_divr by auto. rewrite Cdiv_sq by auto. reflexivity.
Qed.
Lemma fc_abs a : cabs (FC a) = Fin (sqrt (sq a)).
Proof.
  unfold cabs, cre, cim. cbn [FC fst snd]. rewrite !fin_mul, fin_add. apply (fin_sqrt (sq a)). apply sq_nonneg.
Qed.
Lemma sq_RtoC r : sq (RtoC r) = Rsqr r.
Proof. unfold sq, Rsqr. cbn. ring. Qed.

(** ** The determinant *)
Section Gauges.
  Variables (w d : nat -> R) (X : nat -> C) (k : R).
  Definition W (J : nat) : R := RS J w.
  Definition a11 (J : nat) : C := Csum J (fun j => RtoC (w j) * ei (- (2 * k * d j)))%C.
  Definition a22 (J : nat) : C := Csum J (fun j => RtoC (w j) * ei (2 * k * d j))%C.
  Definition b1 (J : nat) : C := Csum J (fun j => RtoC (w j) * X j * ei (- (k * d j)))%C.
  Definition b2 (J : nat) : C := Csum J (fun j => RtoC (w j) * X j * ei (k * d j))%C.
  Definition sep (J : nat) : R := RS J (fun i => RS i (fun j => w i * w j * Rsqr (sin (k * (d i - d j))))).
  Definition det (J : nat) : C := (a11 J * a22 J - RtoC (W J) * RtoC (W J))%C.
  Definition solI (J : nat) : C := ((a22 J * b1 J - RtoC (W J) * b2 J) / det J)%C.
  Definition solR (J : nat) : C := ((- RtoC (W J) * b1 J + a11 J * b2 J) / det J)%C.

  Lemma a11_conj J : a11 J = Cconj (a22 J).
  Proof.
    unfold a11, a22. rewrite Csum_conj. apply Csum_ext. intros j _. rewrite Cconj_mult, <- ei_opp. f_equal. apply C_eq; cbn; ring.
  Qed.
  Lemma a22_cross J v : fst (a22 J * Cconj (ei (2 * k * v)))%C = W J - 2 * RS J (fun j => w j * Rsqr (sin (k * (v - d j)))).
  Proof.
    unfold W. induction J as [|J IH]; [unfold a22; rewrite Csum_0, !RS_0; cbn; ring|].
    unfold a22 in *. rewrite Csum_S, !RS_S.
    replace (fst ((Csum J (fun j : nat => RtoC (w j) * ei (2 * k * d j)) + RtoC (w J) * ei (2 * k * d J)) * Cconj (ei (2 * k * v)))%C)
      with (fst (Csum J (fun j : nat => RtoC (w j) * ei (2 * k * d j)) * Cconj (ei (2 * k * v)))%C
            + w J * cos (2 * (k * (v - d J)))).
    - rewrite IH. replace (cos (2 * (k * (v - d J)))) with (1 - 2 * Rsqr (sin (k * (v - d J)))) by (rewrite cos_2a_sin; unfold Rsqr; ring). ring.
    - replace (2 * (k * (v - d J))) with (2 * k * v - 2 * k * d J) by ring. rewrite cos_minus. cbn. ring.
  Qed.
  Lemma det_real J : det J = RtoC (-4 * sep J).
  Proof.
    unfold det. rewrite a11_conj, Cmult_comm, sq_conj, <- RtoC_mult, <- RtoC_minus. f_equal.
    induction J as [|J IH]; [unfold a22, W, sep, sq; rewrite Csum_0, !RS_0; cbn; ring|].
    assert (E : sq (a22 (S J)) = sq (a22 J) + w J * w J + 2 * w J * fst (a22 J * Cconj (ei (2 * k * d J)))%C).
    { unfold a22 at 1. rewrite Csum_S. fold (a22 J). set (z := a22 J). clearbody z. unfold sq. cbn.
      assert (Q := sin2_cos2 (2 * k * d J)). unfold Rsqr in Q.
      set (c := cos (2 * k * d J)) in *. set (s := sin (2 * k * d J)) in *. destruct z as [z1 z2]; cbn.
      replace (w J * w J) with (w J * w J * (s * s + c * c)) by (rewrite Q; ring). ring. }
    rewrite E, a22_cross. unfold sep, W in *. rewrite !RS_S.
    rewrite (RS_ext J (fun j => w J * w j * (sin (k * (d J - d j)))²) (fun j => w J * (w j * (sin (k * (d J - d j)))²))) by (intros; ring).
    rewrite RS_scal. set (P := RS J (fun j => w j * (sin (k * (d J - d j)))²)) in *.
    set (Q := RS J (fun i => RS i (fun j => w i * w j * (sin (k * (d i - d j)))²))) in *.
    set (S1 := RS J w) in *. set (Z := sq (a22 J)) in *. nra.
  Qed.
  Lemma det_nz J : sep J <> 0 -> det J <> RtoC 0.
  Proof. intros H E. rewrite det_real in E. apply RtoC_inj in E. nra. Qed.

  (** the computed pair solves the normal equations *)
  Lemma sol_normal J : sep J <> 0 ->
    (a11 J * solI J + RtoC (W J) * solR J = b1 J)%C /\ (RtoC (W J) * solI J + a22 J * solR J = b2 J)%C.
  Proof.
    intros H. apply det_nz in H. unfold solI, solR, det in *. split; field; exact H.
  Qed.
  Lemma sol_unique J A B : sep J <> 0 -> (a11 J * A + RtoC (W J) * B = b1 J)%C -> (RtoC (W J) * A + a22 J * B = b2 J)%C ->
    A = solI J /\ B = solR J.
  Proof.
    intros H E1 E2. apply det_nz in H. unfold solI, solR. rewrite <- E1, <- E2. unfold det in *. split; field; exact H.
  Qed.
  Lemma b_superposed J A B : (forall j, (j < J)%nat -> X j = A * ei (- (k * d j)) + B * ei (k * d j))%C ->
    (a11 J * A + RtoC (W J) * B = b1 J)%C /\ (RtoC (W J) * A + a22 J * B = b2 J)%C.
  Proof.
    intros H. unfold b1, b2, a11, a22, W. rewrite <- RS_C.
    rewrite (Cmult_comm _ A), (Cmult_comm _ B), (Cmult_comm _ A), (Cmult_comm _ B). rewrite <- !Csum_scal, <- !Csum_plus.
    split; apply Csum_ext; intros j Hj; rewrite H by auto.
    - replace (- (2 * k * d j)) with (- (k * d j) + - (k * d j)) by ring. rewrite ei_plus.
      assert (E := ei_inv (k * d j)).
      replace (RtoC (w j) * (A * ei (- (k * d j)) + B * ei (k * d j)) * ei (- (k * d j)))%C
        with (A * (RtoC (w j) * (ei (- (k * d j)) * ei (- (k * d j)))) + B * (RtoC (w j) * (ei (k * d j) * ei (- (k * d j)))))%C by ring.
      rewrite E. ring.
    - replace (2 * k * d j) with (k * d j + k * d j) by ring. rewrite ei_plus.
      assert (E := ei_inv (k * d j)).
      replace (RtoC (w j) * (A * ei (- (k * d j)) + B * ei (k * d j)) * ei (k * d j))%C
        with (A * (RtoC (w j) * (ei (k * d j) * ei (- (k * d j)))) + B * (RtoC (w j) * (ei (k * d j) * ei (k * d j))))%C by ring.
      rewrite E. ring.
  Qed.
End Gauges.

(** ** One frequency of the model *)
Definition gauge_list (w d : nat -> R) (X : nat -> C) (J : nat) : list (NX * NX * cpx NX) :=
  map (fun j => (Fin (w j) : NX, Fin (d j) : NX, FC (X j))) (seq 0 J).
Lemma csum_gauges (g : NX * NX * cpx NX -> cpx NX) w d X J (f : nat -> C) :
  (forall j, g (Fin (w j) : NX, Fin (d j) : NX, FC (X j)) = FC (f j)) ->
  csum_map g (gauge_list w d X J) = FC (Csum J f).
Proof.
  intros H. unfold csum_map, gauge_list, Csum. rewrite map_map. rewrite (map_ext _ (fun j => FC (f j))) by auto.
  rewrite <- (map_map f FC). apply csum_FC.
Qed.
Lemma zs_freq_F L w d X k J : 0 <= L ->
  zs_freq (N:=NX) (Fin L) (Fin (W w J)) (Fin k) (gauge_list w d X J)
  = if Rltb L (Rabs (sep w d k J)) then (FC (solI w d X k J), FC (solR w d X k J)) else (FC (RtoC 0), FC (RtoC 0)).
Proof.
  intros HL. unfold zs_freq. cbv zeta.
  rewrite (csum_gauges _ w d X J (fun j => RtoC (w j) * ei (- (2 * k * d j)))%C)
    by (intros; rewrite fin_ofZ, !fin_mul, fin_opp, fc_expi, fc_scale; reflexivity).
  rewrite (csum_gauges _ w d X J (fun j => RtoC (w j) * ei (2 * k * d j))%C)
    by (intros; rewrite fin_ofZ, !fin_mul, fc_expi, fc_scale; reflexivity).
  rewrite (csum_gauges _ w d X J (fun j => RtoC (w j) * X j * ei (- (k * d j)))%C)
    by (intros; rewrite fin_mul, fin_opp, fc_expi, fc_scale, fc_mul; reflexivity).
  rewrite (csum_gauges _ w d X J (fun j => RtoC (w j) * X j * ei (k * d j))%C)
    by (intros; rewrite fin_mul, fc_expi, fc_scale, fc_mul; reflexivity).
  change (Csum J (fun j => RtoC (w j) * ei (- (2 * k * d j)))%C) with (a11 w d k J).
  change (Csum J (fun j => RtoC (w j) * ei (2 * k * d j))%C) with (a22 w d k J).
  change (Csum J (fun j => RtoC (w j) * X j * ei (- (k * d j)))%C) with (b1 w d X k J).
  change (Csum J (fun j => RtoC (w j) * X j * ei (k * d j))%C) with (b2 w d X k J).
  rewrite fc_ofr, fc_opp, !fc_mul, !fc_sub, fc_add. fold (det w d k J).
  rewrite fin_lit by lra. rewrite fc_scale, det_real, <- RtoC_mult, fc_abs, sq_RtoC, sqrt_Rsqr_abs, fin_ltb.
  replace (-25 / 100 * (-4 * sep w d k J)) with (sep w d k J) by field.
  destruct (Rltb_spec L (Rabs (sep w d k J))) as [H|H]; [|reflexivity].
  assert (S : sep w d k J <> 0) by (intros E; rewrite E, Rabs_R0 in H; lra).
  rewrite <- det_real. rewrite !fc_div by (apply det_nz; auto). reflexivity.
Qed.

(** ** From a half spectrum back to a signal *)
Definition full (n : nat) (Y : nat -> C) (k : nat) : C := if Nat.ltb k (n - n / 2) then Y k else Cconj (Y (n - k)%nat).
Definition back (n : nat) (Y : nat -> C) : list R := map (fun l => fst (IDF n (full n Y) l)) (seq 0 n).
Lemma back_length n Y : length (back n Y) = n.
Proof. unfold back. rewrite map_length, seq_length. reflexivity. Qed.
Lemma DF_conj n x m : (0 < n)%nat -> (m <= n)%nat -> DF n (fun j => Cconj (x j)) (n - m) = Cconj (DF n x m).
Proof.
  intros Hn Hm. unfold DF. rewrite Csum_conj. apply Csum_ext. intros j Hj. rewrite tw_mirror by auto. rewrite Cconj_mult, tw_conj'. reflexivity.
Qed.
Lemma DF_period n x : (0 < n)%nat -> DF n x n = DF n x 0.
Proof.
  intros Hn. unfold DF. apply Csum_ext. intros j Hj. f_equal. rewrite (tw_sym _ n j n), (tw_sym _ n j 0).
  rewrite <- (tw_mirror' n n j) by lia. replace (tw 1 n n (n - j)) with (tw 1 n (n - j) n) by apply tw_sym.
  assert (INR n <> 0) by (apply not_0_INR; lia). unfold tw. rewrite !mult_INR.
  replace (1 * 2 * PI * (INR (n - j) * INR n) / INR n) with (2 * PI * INR (n - j)) by (field; auto).
  rewrite ei_period. cbn [INR]. rewrite Rmult_0_l, Rmult_0_r. unfold Rdiv. rewrite Rmult_0_l, ei_0. reflexivity.
Qed.
Lemma coef_back n Y m : (0 < n)%nat -> (m <= n / 2)%nat ->
  coef (back n Y) m = if Nat.eqb m 0 || Nat.eqb (2 * m) n then RtoC (fst (Y m)) else Y m.
Proof.
  intros Hn Hm. assert (Hm2 : (2 * (n / 2) <= n)%nat) by (apply Nat.mul_div_le; lia).
  assert (Hn2 : (n <= 2 * (n / 2) + 1)%nat) by (assert (Q := Nat.mul_succ_div_gt n 2 ltac:(lia)); lia).
  rewrite coef_DF, back_length. set (Z := full n Y).
  rewrite (DF_ext n _ (fun j => RtoC (/ 2) * (IDF n Z j + Cconj (IDF n Z j))))%C.
  2:{ intros j Hj. unfold back. rewrite (map_seq_nth (fun l => fst (IDF n (full n Y) l))) by auto. fold Z. generalize (IDF n Z j). intros z. apply C_eq; cbn; field. }
  assert (E : DF n (fun j => RtoC (/ 2) * (IDF n Z j + Cconj (IDF n Z j)))%C m
              = (RtoC (/ 2) * (DF n (IDF n Z) m + DF n (fun j => Cconj (IDF n Z j)) m))%C).
  { unfold DF. rewrite <- Csum_plus, <- Csum_scal. apply Csum_ext. intros. ring. }
  rewrite E. clear E. rewrite DFT_inversion' by lia.
  destruct (Nat.eqb_spec m 0) as [->|Hm0]; cbn [orb].
  - rewrite <- (DF_period n (fun j => Cconj (IDF n Z j))) by auto. replace (DF n (fun j => Cconj (IDF n Z j)) n) with (DF n (fun j => Cconj (IDF n Z j)) (n - 0)) by (f_equal; lia).
    rewrite DF_conj by lia. rewrite DFT_inversion' by lia. unfold Z, full. replace (Nat.ltb 0 (n - n / 2)) with true by (symmetry; apply Nat.ltb_lt; lia).
    apply C_eq; cbn; field.
  - replace (DF n (fun j => Cconj (IDF n Z j)) m) with (DF n (fun j => Cconj (IDF n Z j)) (n - (n - m))) by (f_equal; lia).
    rewrite DF_conj by lia. rewrite DFT_inversion' by lia. unfold Z, full.
    replace (Nat.ltb (n - m) (n - n / 2)) with false by (symmetry; apply Nat.ltb_ge; lia). replace (n - (n - m))%nat with m by lia.
    destruct (Nat.eqb_spec (2 * m) n).
    + replace (Nat.ltb m (n - n / 2)) with false by (symmetry; apply Nat.ltb_ge; lia). replace (n - m)%nat with m by lia.
      apply C_eq; cbn; field.
    + replace (Nat.ltb m (n - n / 2)) with true by (symmetry; apply Nat.ltb_lt; lia). apply C_eq; cbn; field.
Qed.
(** a real signal is determined by the first half of its Fourier coefficients *)
Lemma coef_determines (x y : list R) : length x = length y ->
  (forall m, (m <= length x / 2)%nat -> coef x m = coef y m) -> x = y.
Proof.
  intros Hl H. assert (Hn2 : (length x <= 2 * (length x / 2) + 1)%nat) by (assert (Q := Nat.mul_succ_div_gt (length x) 2 ltac:(lia)); lia).
  assert (A : forall m, (m < length x)%nat -> coef x m = coef y m).
  { intros m Hm. destruct (Nat.le_gt_cases m (length x / 2)); [auto|].
    assert (E1 := coef_hermitian x (length x - m) ltac:(lia) ltac:(lia)). assert (E2 := coef_hermitian y (length x - m) ltac:(lia) ltac:(lia)).
    rewrite <- Hl in E2. replace (length x - (length x - m))%nat with m in E1, E2 by lia. rewrite E1, E2, H by lia. reflexivity. }
  apply (nth_ext' _ _ 0); auto. intros l Hll. apply RtoC_inj. rewrite <- IDF_coef by auto. rewrite <- IDF_coef by lia.
  rewrite <- Hl. apply IDF_ext. intros j Hj. rewrite !coefs_nth by auto. auto.
Qed.

(** ** The whole function *)
Definition grav : R := 981 / 100.
Definition wavenr (t : list R) (h : R) (m : nat) : R := rk h grav (2 * PI * (INR m * dfreq t)).
Definition wof (w : list R) (j : nat) : R := nth j w 0.
Definition sepR (w x : list R) (k : R) : R := sep (wof w) (dist x) k (length x).
Lemma sepR_eq w x k : sepR w x k = separation w x k.
Proof.
  unfold sepR, sep, separation. apply RS_ext. intros i Hi. apply RS_ext. intros j Hj. unfold dist, wof.
  replace (nth i x 0 - nth 0 x 0 - (nth j x 0 - nth 0 x 0)) with (nth i x 0 - nth j x 0) by ring. reflexivity.
Qed.
Definition amp (sigs : list (list R)) (m : nat) (j : nat) : C := coef (nth j sigs []) m.
Definition Yi t h x w L sigs (m : nat) : C :=
  if Rltb L (Rabs (separation w x (wavenr t h m))) then solI (wof w) (dist x) (amp sigs m) (wavenr t h m) (length x) else RtoC 0.
Definition Yr t h x w L sigs (m : nat) : C :=
  if Rltb L (Rabs (separation w x (wavenr t h m))) then solR (wof w) (dist x) (amp sigs m) (wavenr t h m) (length x) else RtoC 0.

Lemma flat_map_nth {A} (l : list nat) (g : nat -> list A) c d : (forall i, length (g i) = c) ->
  forall i j, (i < length l)%nat -> (j < c)%nat -> nth (i * c + j) (flat_map g l) d = nth j (g (nth i l 0%nat)) d.
Proof.
  intros Hc. induction l as [|a l IH]; intros i j Hi Hj; cbn [length] in Hi; [lia|]. cbn [flat_map]. destruct i.
  - cbn [Nat.mul Nat.add nth]. apply app_nth1. rewrite Hc. auto.
  - rewrite app_nth2 by (rewrite Hc; cbn; lia). rewrite Hc. replace (S i * c + j - c)%nat with (i * c + j)%nat by (cbn; lia). apply IH; lia.
Qed.
Lemma column_matrix n sigs j : (j < length sigs)%nat -> (forall s, In s sigs -> length s = n) ->
  column (n0 (N:=NX)) (data (matrix n sigs)) n (length sigs) j = F (nth j sigs []).
Proof.
  intros Hj Hs. assert (Ls : length (nth j sigs []) = n) by (apply Hs, nth_In; auto).
  unfold column, matrix. cbn [data]. apply (nth_ext' _ _ (Fin 0)); [rewrite map_length, seq_length, F_length; auto|].
  intros i Hi. rewrite map_length, seq_length in Hi.
  rewrite (map_seq_nth (fun i => nth (i * length sigs + j) _ (n0 (N:=NX)))) by auto. rewrite fin_0. rewrite !F_nth. f_equal.
  rewrite (flat_map_nth (seq 0 n) (fun i => map (fun s => nth i s 0) sigs) (length sigs)); auto.
  - rewrite seq_nth by auto. cbn [Nat.add]. rewrite (nth_indep _ 0 (nth i [] 0)) by (rewrite map_length; auto).
    apply (map_nth (fun s => nth i s 0) sigs [] j).
  - intros. apply map_length.
  - rewrite seq_length. auto.
Qed.
Lemma Rdiff_pos x : increasing x -> forall v, In v (Rdiff x) -> 0 < v.
Proof.
  intros H v Hv. apply (In_nth _ _ 0) in Hv. destruct Hv as (i & Hi & <-). rewrite Rdiff_length in Hi. rewrite Rdiff_nth by lia.
  specialize (H i (S i) ltac:(lia)). lra.
Qed.
Lemma RS_wof w n : length w = n -> W (wof w) n = Rsum w.
Proof. intros <-. unfold W, wof. rewrite Rsum_RS. reflexivity. Qed.

Section Whole.
  Variables (t : list R) (sigs : list (list R)) (x w : list R) (h L : R).
  Hypothesis HA : accepted t sigs x w.
  Hypothesis Hh : 0 < h.
  Hypothesis HL : 0 <= L.
  Let n := length t.
  Local Notation J := (length x).

  Lemma gauges_eq m : (m < nnyq n)%nat ->
    map2 (fun wd X => (wd, nth m X c0)) (combine (F w) (F (map (dist x) (seq 0 J)))) (map (fun s => FCs (coefs s (nnyq n))) sigs)
    = gauge_list (wof w) (dist x) (amp sigs m) J.
  Proof.
    intros Hm. destruct HA. unfold gauge_list.
    assert (Lc : length (combine (F w) (F (map (dist x) (seq 0 J)))) = J)
      by (rewrite combine_length, !F_length, map_length, seq_length; lia).
    apply (nth_ext' _ _ ((Fin 0 : NX, Fin 0 : NX), c0)); [rewrite map2_length, !map_length, seq_length; lia|].
    intros j Hj. rewrite map2_length, map_length in Hj.
    rewrite (map2_nth _ _ _ _ (Fin 0 : NX, Fin 0 : NX) (FCs (coefs [] (nnyq n)))) by (rewrite ?map_length; lia).
    rewrite combine_nth by (rewrite !F_length, map_length, seq_length; lia). rewrite !F_nth.
    rewrite (map_seq_nth (dist x)) by lia.
    rewrite (map_seq_nth (fun j => (Fin (wof w j) : NX, Fin (dist x j) : NX, FC (amp sigs m j)))) by lia.
    f_equal. rewrite (map_nth (fun s => FCs (coefs s (nnyq n))) sigs [] j). rewrite fc_0, nth_FCs, coefs_nth by auto. reflexivity.
  Qed.
  Lemma dists_eq : (Fin 0 : NX) :: map (fun v => nsub (n:=NX) v (Fin (nth 0 x 0))) (tl (F x)) = F (map (dist x) (seq 0 J)).
  Proof.
    destruct HA. destruct x as [|x0 x']; [cbn in acc_x; lia|]. change (tl (F (x0 :: x'))) with (F x').
    apply (nth_ext' _ _ (Fin 0)); [cbn [length]; rewrite F_length, !map_length, seq_length, F_length; reflexivity|].
    intros j Hj. cbn [length] in Hj. rewrite map_length, F_length in Hj. rewrite F_nth, (map_seq_nth (dist (x0 :: x'))) by (cbn; lia). destruct j.
    - unfold dist. cbn [nth]. f_equal. ring.
    - unfold dist. cbn [nth]. replace (map (fun v => nsub (n:=NX) v (Fin x0)) (F x')) with (F (map (fun v => v - x0) x')).
      + rewrite F_nth. f_equal. rewrite (nth_indep _ 0 (0 - x0)) by (rewrite map_length; lia). apply (map_nth (fun v => v - x0) x' 0 j).
      + unfold F. rewrite !map_map. reflexivity.
  Qed.

  Lemma unfold_back (Y : nat -> C) :
    unfold_spectrum (Arr (colvec (F (freqs (dfreq t) (nnyq n))))) (Arr (colvec (FCs (map Y (seq 0 (nnyq n)))))) (Nat.odd n)
    = Ok (F (freqs (dfreq t) n), FCs (map (full n Y) (seq 0 n))).
  Proof.
    destruct HA. assert (H2 := proj1 acc_axis). fold n in H2. assert (Hq := nnyq_le n H2). assert (Hn := nnyq_total n H2).
    destruct (unfold_eq (freqs (dfreq t) (nnyq n)) (FCs (map Y (seq 0 (nnyq n)))) (Arr (colvec (F (freqs (dfreq t) (nnyq n)))))
      (Arr (colvec (FCs (map Y (seq 0 (nnyq n)))))) (Nat.odd n)) as (Z & E & LZ & Z1 & Z2);
      [rewrite freqs_length; lia|rewrite FCs_length, map_length, seq_length, freqs_length; auto|apply hv_column|apply hv_column|].
    rewrite E. rewrite freqs_length in *. rewrite Hn in *. rewrite step_freqs by lia. f_equal. f_equal.
    apply (nth_ext' _ _ c0); [rewrite FCs_length, map_length, seq_length; auto|].
    intros k Hk. rewrite LZ in Hk. rewrite fc_0, nth_FCs, map_seq_nth, <- fc_0 by auto.
    assert (Hh2 : (n - n / 2 = nnyq n - 1 + b2n (Nat.odd n))%nat).
    { unfold nnyq in *. lia. }
    unfold full. rewrite Hh2. destruct (Nat.ltb_spec k (nnyq n - 1 + b2n (Nat.odd n))).
    + rewrite Z1 by auto. rewrite fc_0, nth_FCs. f_equal. apply map_seq_nth. unfold b2n in *. destruct (Nat.odd n); lia.
    + rewrite Z2, LZ by lia. rewrite fc_0, nth_FCs. rewrite fc_conj. f_equal. f_equal. apply map_seq_nth. unfold b2n in *. destruct (Nat.odd n); lia.
  Qed.
  Lemma freq2time_back (Y : nat -> C) : freq2time (Arr (vec (FCs (map (full n Y) (seq 0 n))))) = Ok (F (back n Y)).
  Proof.
    destruct HA. assert (H2 := proj1 acc_axis). fold n in H2.
    rewrite (freq2time_FC (map (full n Y) (seq 0 n))) by (try apply hv_flat; intros E; apply (f_equal (@length C)) in E; rewrite map_length, seq_length in E; cbn in E; lia).
    rewrite map_length, seq_length. f_equal. f_equal. unfold back. apply map_ext. intros l. f_equal. apply IDF_ext. intros j Hj. apply map_seq_nth. auto.
  Qed.

  Lemma decompose_F : decompose_linear_ZS (N:=NX) (F t) (matrix n sigs) (Fin h) (F x) (F w) (Fin L)
    = Ok (F (back n (Yi t h x w L sigs)), F (back n (Yr t h x w L sigs))).
  Proof.
    pose proof HA as [G HS HG Lx Lw Hx Hw Hsum]. assert (H2 := proj1 G). fold n in H2.
    assert (Wn : w <> []) by (intros ->; cbn in Lw; lia). assert (Dn : Rdiff x <> []) by (intros E; apply (f_equal (@length R)) in E; rewrite Rdiff_length in E; cbn in E; lia).
    unfold decompose_linear_ZS. change (shape (matrix n sigs)) with [n; length sigs]. cbv iota. rewrite !F_length, Lx, Lw, !Nat.eqb_refl. cbn [negb].
    replace (Nat.ltb 1 (length sigs)) with true by (symmetry; apply Nat.ltb_lt; lia). cbn [negb]. fold n.
    destruct (pymin_F w Wn) as (mn & -> & I1 & M1). destruct (pymax_F w Wn) as (mx & -> & I2 & M2). rewrite !bind_Ok.
    rewrite fin_0, fin_1, fin_ltb, fin_leb.
    assert (B : Rltb 0 mn || Rleb mx 1 = true).
    { apply orb_true_iff. destruct Hw as [Hw|Hw]; [left; apply Rltb_true; auto|right]. specialize (Hw mx I2). destruct (Rleb_spec mx 1); auto; lra. }
    rewrite B. cbn [negb]. cbv zeta. rewrite nsum_F, fin_ltb, (Rltb_true 1 (Rsum w)) by auto. cbn [negb].
    rewrite ndiff_F. destruct (pymin_F (Rdiff x) Dn) as (dm & -> & I3 & M3). rewrite bind_Ok, fin_ltb, (Rltb_true 0 dm) by (apply (Rdiff_pos x Hx); auto). cbn [negb].
    rewrite idx_F by lia. rewrite bind_Ok.
    rewrite (mapM_Ok _ (fun c => (F (freqs (dfreq t) (nnyq n)), FCs (coefs (map (fun v => match v with Fin r => r | _ => 0 end) c) (nnyq n)), Nat.odd n))).
    2:{ intros c Hc. apply in_map_iff in Hc. destruct Hc as (j & <- & Hj). apply in_seq in Hj. rewrite column_matrix by (auto; lia).
        assert (Ls : length (nth j sigs []) = n) by (apply HS, nth_In; lia).
        rewrite (nyquist_F t (nth j sigs [])) by (auto; constructor). rewrite Ls.
        unfold F. rewrite map_map, map_id. reflexivity. }
    rewrite bind_Ok. rewrite map_map.
    assert (EX : map (fun j => (F (freqs (dfreq t) (nnyq n)), FCs (coefs (map (fun v : NX => match v with Fin r => r | _ => 0 end) (column (Fin 0 : NX) (data (matrix n sigs)) n (length sigs) j)) (nnyq n)), Nat.odd n)) (seq 0 (length sigs))
       = map (fun s => (F (freqs (dfreq t) (nnyq n)), FCs (coefs s (nnyq n)), Nat.odd n)) sigs).
    { apply (nth_ext' _ _ (F (freqs (dfreq t) (nnyq n)), FCs (coefs [] (nnyq n)), Nat.odd n)); [rewrite !map_length, seq_length; auto|].
      intros j Hj. rewrite map_length, seq_length in Hj. rewrite (map_seq_nth (fun j => (F (freqs (dfreq t) (nnyq n)), FCs (coefs (map (fun v : NX => match v with Fin r => r | _ => 0 end) (column (Fin 0 : NX) (data (matrix n sigs)) n (length sigs) j)) (nnyq n)), Nat.odd n))) by auto.
      rewrite (map_nth (fun s => (F (freqs (dfreq t) (nnyq n)), FCs (coefs s (nnyq n)), Nat.odd n)) sigs [] j).
      change (Fin 0 : NX) with (n0 (N:=NX)). rewrite column_matrix by auto. unfold F. rewrite map_map, map_id. reflexivity. }
    match goal with |- context [idx ?M 0] => change M with (map (fun j => (F (freqs (dfreq t) (nnyq n)), FCs (coefs (map (fun v : NX => match v with Fin r => r | _ => 0 end) (column (Fin 0 : NX) (data (matrix n sigs)) n (length sigs) j)) (nnyq n)), Nat.odd n)) (seq 0 (length sigs))) end.
    rewrite EX. clear EX.
    replace (idx (map (fun s : list R => (F (freqs (dfreq t) (nnyq n)), FCs (coefs s (nnyq n)), Nat.odd n)) sigs) 0)
      with (Ok (F (freqs (dfreq t) (nnyq n)), FCs (coefs (nth 0 sigs []) (nnyq n)), Nat.odd n)) by (destruct sigs; [cbn in HG; lia|reflexivity]).
    rewrite bind_Ok.
    replace (map (fun v : NX => nmul (n:=NX) (nmul (n:=NX) (nofZ (n:=NX) 2) (npi (n:=NX))) v) (F (freqs (dfreq t) (nnyq n))))
      with (F (map (fun m => 2 * PI * (INR m * dfreq t)) (seq 0 (nnyq n)))).
    2:{ unfold F, freqs. rewrite !map_map. apply map_ext. intros m. rewrite fin_ofZ, fin_pi, !fin_mul. reflexivity. }
    rewrite fin_lit by lra. change (981 / 100) with grav. rewrite disper_F by (auto; unfold grav; lra). rewrite bind_Ok. rewrite !map_map. cbn [fst snd].
    rewrite F_length, freqs_length.
    match goal with |- context [combine (F w) ?D] => replace D with (F (map (dist x) (seq 0 J))) by (symmetry; exact dists_eq) end.
    assert (EZ : forall m, In m (seq 0 (nnyq n)) ->
      zs_freq (N:=NX) (Fin L) (Fin (Rsum w)) (nth m (F (map (fun m => rk h grav (2 * PI * (INR m * dfreq t))) (seq 0 (nnyq n)))) nnan)
        (map2 (fun wd X => (wd, nth m X c0)) (combine (F w) (F (map (dist x) (seq 0 J)))) (map (fun s => FCs (coefs s (nnyq n))) sigs))
      = (FC (Yi t h x w L sigs m), FC (Yr t h x w L sigs m))).
    { intros m Hm. apply in_seq in Hm. rewrite gauges_eq by lia. rewrite (nth_indep _ nnan (Fin 0)) by (rewrite F_length, map_length, seq_length; lia).
      rewrite F_nth, (map_seq_nth (fun m => rk h grav (2 * PI * (INR m * dfreq t)))) by lia. fold (wavenr t h m).
      rewrite <- (RS_wof w J) by lia. rewrite zs_freq_F by auto. unfold Yi, Yr. rewrite <- sepR_eq. unfold sepR.
      destruct (Rltb L (Rabs (sep (wof w) (dist x) (wavenr t h m) J))); reflexivity. }
    set (zz := fun m => fst (zs_freq _ _ _ _)). set (zr := fun m => snd (zs_freq _ _ _ _)).
    replace (map zz (seq 0 (nnyq n))) with (FCs (map (Yi t h x w L sigs) (seq 0 (nnyq n)))).
    2:{ unfold FCs. rewrite map_map. apply map_ext_in. intros m Hm. unfold zz. rewrite EZ by auto. reflexivity. }
    replace (map zr (seq 0 (nnyq n))) with (FCs (map (Yr t h x w L sigs) (seq 0 (nnyq n)))).
    2:{ unfold FCs. rewrite map_map. apply map_ext_in. intros m Hm. unfold zr. rewrite EZ by auto. reflexivity. }
    rewrite !unfold_back, !bind_Ok, !freq2time_back, !bind_Ok. reflexivity.
  Qed.
End Whole.
