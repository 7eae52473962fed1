(** * Incident/reflected decomposition: claims C46 - C48 *)

From Coq Require Import ZArith Reals Lra Lia List Bool.
From Coquelicot Require Import Complex.
From Verif Require Import Num XR Engine Cpx SpectralModel DisperModel DecompModel Spec XRFacts DFT FourierSpec RSum EngineProps
  TimeProps TimeProps3 FourierFacts FourierProps DisperProps DecompSpec DecompProps.
Import ListNotations.
Open Scope R_scope.

(** k m is the wave number that the dispersion solver returns for the m-th frequency of the time axis t *)
Definition wave_numbers (t : list R) (h : R) (k : nat -> R) : Prop :=
  forall m, (m <= length t / 2)%nat ->
    disper (N:=NX) (Scalar (Fin (2 * PI * (INR m / (INR (length t) * (nth 1 t 0 - nth 0 t 0)))))) (Fin h) (Fin (981 / 100)) = Ok (F [k m]).
(** Fourier coefficient m of the signal of gauge j *)
Definition gauge (sigs : list (list R)) (m j : nat) : C := coef (nth j sigs []) m.

Lemma wn_eq t h k m : 0 < h -> wave_numbers t h k -> (m <= length t / 2)%nat -> k m = wavenr t h m.
Proof.
  intros Hh H Hm. specialize (H m Hm). rewrite disper_scalar in H by lra. apply Ok_inj in H. injection H as H. symmetry. exact H.
Qed.
Lemma wn_exists t h : 0 < h -> wave_numbers t h (wavenr t h).
Proof. intros Hh m Hm. rewrite disper_scalar by lra. reflexivity. Qed.
Lemma wavenr_0 t h : wavenr t h 0 = 0.
Proof. unfold wavenr, rk. cbn [INR]. rewrite Rmult_0_l, Rmult_0_r, rsign_0. unfold Rdiv. ring. Qed.
Lemma retained_0 L w x : 0 <= L -> ~ retained L w x 0.
Proof.
  intros HL H. unfold retained, separation in H. rewrite RS_zero in H; [rewrite Rabs_R0 in H; lra|].
  intros i Hi. apply RS_zero. intros j Hj. rewrite Rmult_0_l, sin_0. unfold Rsqr. ring.
Qed.
Lemma Yi_ret t h x w L sigs m : retained L w x (wavenr t h m) ->
  Yi t h x w L sigs m = solI (wof w) (dist x) (amp sigs m) (wavenr t h m) (length x).
Proof. intros H. unfold Yi. rewrite (Rltb_true _ _) by exact H. reflexivity. Qed.
Lemma Yr_ret t h x w L sigs m : retained L w x (wavenr t h m) ->
  Yr t h x w L sigs m = solR (wof w) (dist x) (amp sigs m) (wavenr t h m) (length x).
Proof. intros H. unfold Yr. rewrite (Rltb_true _ _) by exact H. reflexivity. Qed.
Lemma Y_not t h x w L sigs m : ~ retained L w x (wavenr t h m) -> Yi t h x w L sigs m = RtoC 0 /\ Yr t h x w L sigs m = RtoC 0.
Proof. intros H. unfold Yi, Yr. rewrite (Rltb_false _ _) by (apply Rnot_lt_le; exact H). auto. Qed.
Lemma ret_sep L w x k : 0 <= L -> retained L w x k -> sep (wof w) (dist x) k (length x) <> 0.
Proof. intros HL H E. change (sepR w x k = 0) in E. rewrite sepR_eq in E. unfold retained in H. rewrite E, Rabs_R0 in H. lra. Qed.
Lemma coef_real x m : m = 0%nat \/ (2 * m = length x)%nat -> (0 < length x)%nat -> snd (coef x m) = 0.
Proof.
  intros Hm Hn. rewrite coef_DF. destruct Hm as [->|Hm].
  - assert (E := DF_hermitian (length x) (fun j => RtoC (nth j x 0)) 0 Hn ltac:(lia) ltac:(reflexivity)).
    rewrite Nat.sub_0_r, DF_period in E by auto. apply (f_equal snd) in E. unfold Cconj in E. cbn [snd] in E. lra.
  - assert (E := DF_hermitian (length x) (fun j => RtoC (nth j x 0)) m Hn ltac:(lia) ltac:(reflexivity)).
    replace (length x - m)%nat with m in E by lia. apply (f_equal snd) in E. unfold Cconj in E. cbn [snd] in E. lra.
Qed.

(** ** C46 *)
Theorem C46_recovers (t : list R) (sigs : list (list R)) (x w : list R) (h detLim : R) (k : nat -> R) (inc ref : list R) :
  accepted t sigs x w -> 0 < h -> 0 <= detLim -> wave_numbers t h k ->
  length inc = length t -> length ref = length t ->
  (forall m j, (m <= length t / 2)%nat -> (j < length x)%nat -> retained detLim w x (k m) ->
     gauge sigs m j = superposed x (k m) (coef inc m) (coef ref m) j) ->
  exists i r, decompose_linear_ZS (N:=NX) (F t) (matrix (length t) sigs) (Fin h) (F x) (F w) (Fin detLim) = Ok (F i, F r)
    /\ length i = length t /\ length r = length t
    /\ forall m, (m <= length t / 2)%nat ->
         (retained detLim w x (k m) -> coef i m = coef inc m /\ coef r m = coef ref m)
         /\ (~ retained detLim w x (k m) -> coef i m = RtoC 0 /\ coef r m = RtoC 0).
Proof.
  intros HA Hh HL HK Li Lr H. assert (Hn : (2 <= length t)%nat) by apply (acc_axis _ _ _ _ HA).
  eexists _, _. split; [apply decompose_F; auto|]. rewrite !back_length. split; [auto|]. split; [auto|].
  intros m Hm. rewrite !coef_back by (auto; lia). rewrite (wn_eq t h k m) by auto. split; intros HR.
  - assert (S := ret_sep _ _ _ _ HL HR).
    destruct (b_superposed (wof w) (dist x) (amp sigs m) (wavenr t h m) (length x) (coef inc m) (coef ref m)) as [E1 E2].
    { intros j Hj. rewrite <- (wn_eq t h k m) in * by auto. exact (H m j Hm Hj HR). }
    destruct (sol_unique _ _ _ _ _ _ _ S E1 E2) as [E3 E4]. rewrite Yi_ret, Yr_ret by auto. rewrite <- E3, <- E4.
    destruct (Nat.eqb m 0 || Nat.eqb (2 * m) (length t)) eqn:B; [|auto].
    assert (Hc : m = 0%nat \/ (2 * m = length t)%nat) by (apply orb_true_iff in B; destruct B as [B|B]; apply Nat.eqb_eq in B; auto).
    split; apply C_eq; cbn [fst snd RtoC]; auto; symmetry; apply coef_real; lia.
  - destruct (Y_not t h x w detLim sigs m HR) as [-> ->]. destruct (Nat.eqb m 0 || Nat.eqb (2 * m) (length t)); auto.
Qed.

(** when the parts have nothing outside the retained frequencies they come back exactly *)
Theorem C46_recovers_exactly (t : list R) (sigs : list (list R)) (x w : list R) (h detLim : R) (k : nat -> R) (inc ref : list R) :
  accepted t sigs x w -> 0 < h -> 0 <= detLim -> wave_numbers t h k ->
  length inc = length t -> length ref = length t ->
  (forall m j, (m <= length t / 2)%nat -> (j < length x)%nat -> retained detLim w x (k m) ->
     gauge sigs m j = superposed x (k m) (coef inc m) (coef ref m) j) ->
  (forall m, (m <= length t / 2)%nat -> ~ retained detLim w x (k m) -> coef inc m = RtoC 0 /\ coef ref m = RtoC 0) ->
  decompose_linear_ZS (N:=NX) (F t) (matrix (length t) sigs) (Fin h) (F x) (F w) (Fin detLim) = Ok (F inc, F ref).
Proof.
  intros HA Hh HL HK Li Lr H HZ.
  destruct (C46_recovers t sigs x w h detLim k inc ref HA Hh HL HK Li Lr H) as (i & r & E & Ei & Er & Hc).
  rewrite E. assert (i = inc /\ r = ref) as [-> ->]; [|reflexivity].
  split; apply coef_determines; try lia; rewrite ?Ei, ?Er; intros m Hm; destruct (Hc m Hm) as [H1 H2];
    (destruct (Rlt_dec detLim (Rabs (separation w x (k m)))) as [D|D]; [apply H1, D|]);
    destruct (H2 D) as [D1 D2]; destruct (HZ m Hm D) as [D3 D4]; congruence.
Qed.

(** the computed amplitudes fit the measured ones best, at every retained frequency below the Nyquist frequency *)
Theorem C46_least_squares (t : list R) (sigs : list (list R)) (x w : list R) (h detLim : R) (k : nat -> R) :
  accepted t sigs x w -> (forall v, In v w -> 0 <= v) -> 0 < h -> 0 <= detLim -> wave_numbers t h k ->
  exists i r, decompose_linear_ZS (N:=NX) (F t) (matrix (length t) sigs) (Fin h) (F x) (F w) (Fin detLim) = Ok (F i, F r)
    /\ forall m, (2 * m < length t)%nat -> retained detLim w x (k m) ->
       forall A B, misfit w x (k m) (gauge sigs m) (coef i m) (coef r m) <= misfit w x (k m) (gauge sigs m) A B.
Proof.
  intros HA Hp Hh HL HK. assert (Hn : (2 <= length t)%nat) by apply (acc_axis _ _ _ _ HA).
  eexists _, _. split; [apply decompose_F; auto|]. intros m Hm HR A B.
  assert (Hm2 : (m <= length t / 2)%nat) by (apply Nat.div_le_lower_bound; lia).
  assert (Hm0 : m <> 0%nat).
  { intros ->. rewrite (wn_eq t h k 0) in HR by auto. rewrite wavenr_0 in HR. apply (retained_0 _ _ _ HL HR). }
  rewrite !coef_back by lia. replace (Nat.eqb m 0) with false by (symmetry; apply Nat.eqb_neq; auto).
  replace (Nat.eqb (2 * m) (length t)) with false by (symmetry; apply Nat.eqb_neq; lia). cbn [orb].
  rewrite (wn_eq t h k m) in * by auto. rewrite Yi_ret, Yr_ret by auto.
  assert (S := ret_sep _ _ _ _ HL HR). set (K := wavenr t h m) in *.
  destruct (sol_normal (wof w) (dist x) (amp sigs m) K (length x) S) as [E1 E2].
  set (I0 := solI _ _ _ _ _) in *. set (R0 := solR _ _ _ _ _) in *. clearbody I0 R0.
  set (al := (A - I0)%C). set (be := (B - R0)%C).
  set (res := fun j => (gauge sigs m j - superposed x K I0 R0 j)%C).
  (* the residual is orthogonal to both waves *)
  assert (O1 : Csum (length x) (fun j => RtoC (wof w j) * res j * ei (- (K * dist x j)))%C = RtoC 0).
  { rewrite (Csum_ext _ _ (fun j => RtoC (wof w j) * amp sigs m j * ei (- (K * dist x j))
        + (- RtoC 1) * (I0 * (RtoC (wof w j) * ei (- (2 * K * dist x j))) + R0 * RtoC (wof w j))))%C.
    - rewrite Csum_plus, Csum_scal, Csum_plus, !Csum_scal, RS_C. fold (b1 (wof w) (dist x) (amp sigs m) K (length x)).
      fold (a11 (wof w) (dist x) K (length x)). fold (W (wof w) (length x)). rewrite <- E1.
      ring.
    - intros j Hj. unfold res, superposed, gauge, amp. replace (- (2 * K * dist x j)) with (- (K * dist x j) + - (K * dist x j)) by ring.
      rewrite ei_plus. assert (Q := ei_inv (K * dist x j)). set (u := ei (- (K * dist x j))) in *. set (v := ei (K * dist x j)) in *.
      set (X := coef (nth j sigs []) m). set (c := RtoC (wof w j)).
      replace (c * (X - (I0 * u + R0 * v)) * u)%C with (c * X * u + (- RtoC 1) * (I0 * (c * (u * u)) + R0 * c * (v * u)))%C by ring. rewrite Q. ring. }
  assert (O2 : Csum (length x) (fun j => RtoC (wof w j) * res j * ei (K * dist x j))%C = RtoC 0).
  { rewrite (Csum_ext _ _ (fun j => RtoC (wof w j) * amp sigs m j * ei (K * dist x j)
        + (- RtoC 1) * (I0 * RtoC (wof w j) + R0 * (RtoC (wof w j) * ei (2 * K * dist x j)))))%C.
    - rewrite Csum_plus, Csum_scal, Csum_plus, !Csum_scal, RS_C. fold (b2 (wof w) (dist x) (amp sigs m) K (length x)).
      fold (a22 (wof w) (dist x) K (length x)). fold (W (wof w) (length x)). rewrite <- E2. ring.
    - intros j Hj. unfold res, superposed, gauge, amp. replace (2 * K * dist x j) with (K * dist x j + K * dist x j) by ring.
      rewrite ei_plus. assert (Q := ei_inv (K * dist x j)). set (u := ei (- (K * dist x j))) in *. set (v := ei (K * dist x j)) in *.
      set (X := coef (nth j sigs []) m). set (c := RtoC (wof w j)).
      replace (c * (X - (I0 * u + R0 * v)) * v)%C with (c * X * v + (- RtoC 1) * (I0 * c * (v * u) + R0 * (c * (v * v))))%C by ring. rewrite Q. ring. }
  (* hence the misfit of any other pair is larger by the (weighted) size of the difference *)
  assert (P : misfit w x K (gauge sigs m) A B = misfit w x K (gauge sigs m) I0 R0
     + RS (length x) (fun j => nth j w 0 * sq (al * ei (- (K * dist x j)) + be * ei (K * dist x j))%C)
     - 2 * fst (Cconj al * Csum (length x) (fun j => RtoC (wof w j) * res j * ei (K * dist x j))
                + Cconj be * Csum (length x) (fun j => RtoC (wof w j) * res j * ei (- (K * dist x j))))%C).
  { unfold misfit. rewrite <- !Csum_scal, <- Csum_plus, Csum_fst, <- RS_scal, <- RS_plus, <- RS_minus. apply RS_ext. intros j Hj.
    replace (gauge sigs m j - superposed x K A B j)%C with (res j - (al * ei (- (K * dist x j)) + be * ei (K * dist x j)))%C
      by (unfold res, superposed, al, be; ring).
    fold (res j). rewrite !ei_opp. fold (wof w j). generalize (res j) (ei (K * dist x j)) (wof w j). clearbody al be.
    intros [r1 r2] [u1 u2] ww. destruct al as [p1 p2], be as [q1 q2]. unfold sq. cbn. ring. }
  rewrite P, O1, O2. replace (Cconj al * RtoC 0 + Cconj be * RtoC 0)%C with (RtoC 0) by ring. cbn [fst RtoC].
  assert (0 <= RS (length x) (fun j => nth j w 0 * sq (al * ei (- (K * dist x j)) + be * ei (K * dist x j))%C)); [|lra].
  apply RS_nonneg. intros j Hj. apply Rmult_le_pos; [|apply sq_nonneg]. apply Hp, nth_In.
  rewrite (acc_w _ _ _ _ HA), <- (acc_x _ _ _ _ HA). auto.
Qed.

(** linear in the signals *)
Definition lincomb (a b : R) (x y : list R) : list R := map2 (fun u v => a * u + b * v) x y.
Lemma b_linear w d X Y Z k J (a b : R) : (forall j, (j < J)%nat -> Z j = RtoC a * X j + RtoC b * Y j)%C ->
  (b1 w d Z k J = RtoC a * b1 w d X k J + RtoC b * b1 w d Y k J)%C /\ (b2 w d Z k J = RtoC a * b2 w d X k J + RtoC b * b2 w d Y k J)%C.
Proof.
  intros H. unfold b1, b2. rewrite <- !Csum_scal, <- !Csum_plus. split; apply Csum_ext; intros j Hj; rewrite H by auto; ring.
Qed.
Lemma Y_linear t h x w L s1 s2 s3 m a b :
  (forall j, (j < length x)%nat -> amp s3 m j = RtoC a * amp s1 m j + RtoC b * amp s2 m j)%C ->
  (Yi t h x w L s3 m = RtoC a * Yi t h x w L s1 m + RtoC b * Yi t h x w L s2 m)%C
  /\ (Yr t h x w L s3 m = RtoC a * Yr t h x w L s1 m + RtoC b * Yr t h x w L s2 m)%C.
Proof.
  intros H. unfold Yi, Yr. destruct (Rltb L (Rabs (separation w x (wavenr t h m)))); [|split; ring].
  unfold solI, solR. destruct (b_linear (wof w) (dist x) _ _ _ (wavenr t h m) _ a b H) as [-> ->]. unfold Cdiv. split; ring.
Qed.
Lemma lincomb_length a b x y : length x = length y -> length (lincomb a b x y) = length x.
Proof. intros H. unfold lincomb. rewrite map2_length, H. lia. Qed.
Theorem C46_linear (t : list R) (s1 s2 : list (list R)) (x w : list R) (h detLim a b : R) :
  accepted t s1 x w -> accepted t s2 x w -> 0 < h -> 0 <= detLim ->
  exists i1 r1 i2 r2,
    decompose_linear_ZS (N:=NX) (F t) (matrix (length t) s1) (Fin h) (F x) (F w) (Fin detLim) = Ok (F i1, F r1)
    /\ decompose_linear_ZS (N:=NX) (F t) (matrix (length t) s2) (Fin h) (F x) (F w) (Fin detLim) = Ok (F i2, F r2)
    /\ decompose_linear_ZS (N:=NX) (F t) (matrix (length t) (map2 (lincomb a b) s1 s2)) (Fin h) (F x) (F w) (Fin detLim)
       = Ok (F (lincomb a b i1 i2), F (lincomb a b r1 r2)).
Proof.
  intros A1 A2 Hh HL. assert (Hn : (2 <= length t)%nat) by apply (acc_axis _ _ _ _ A1).
  assert (Ls : length (map2 (lincomb a b) s1 s2) = length s1).
  { rewrite map2_length. destruct A1, A2. lia. }
  assert (Nj : forall j, (j < length x)%nat -> nth j (map2 (lincomb a b) s1 s2) [] = lincomb a b (nth j s1 []) (nth j s2 [])).
  { intros j Hj. destruct A1, A2. apply map2_nth; lia. }
  assert (A3 : accepted t (map2 (lincomb a b) s1 s2) x w).
  { pose proof A1 as A1'. pose proof A2 as A2'. destruct A1', A2'. constructor; auto; try lia.
    intros s Hs. apply (In_nth _ _ []) in Hs. destruct Hs as (j & Hj & <-). rewrite Nj by lia. rewrite lincomb_length.
    - apply acc_sig, nth_In. lia.
    - transitivity (length t); [|symmetry]; [apply acc_sig|apply acc_sig0]; apply nth_In; lia. }
  eexists _, _, _, _. split; [apply decompose_F; auto|]. split; [apply decompose_F; auto|].
  rewrite (decompose_F t _ x w h detLim A3 Hh HL).
  assert (G : forall m, (m <= length t / 2)%nat -> forall j, (j < length x)%nat ->
    amp (map2 (lincomb a b) s1 s2) m j = (RtoC a * amp s1 m j + RtoC b * amp s2 m j)%C).
  { intros m Hm j Hj. unfold amp. rewrite Nj by auto. apply coef_linear. destruct A1, A2.
    transitivity (length t); [|symmetry]; [apply acc_sig|apply acc_sig0]; apply nth_In; lia. }
  assert (Lb : forall Y1 Y2, length (lincomb a b (back (length t) Y1) (back (length t) Y2)) = length t)
    by (intros; rewrite lincomb_length; rewrite !back_length; reflexivity).
  f_equal. f_equal; f_equal; apply coef_determines; rewrite ?Lb, ?back_length; auto; intros m Hm;
    match goal with |- _ = coef (lincomb _ _ ?u ?v) _ => assert (CL := coef_linear u v a b m); fold (lincomb a b u v) in CL; rewrite CL by (rewrite !back_length; auto); clear CL end; rewrite !coef_back by lia;
    destruct (Y_linear t h x w detLim s1 s2 _ m a b (G m Hm)) as [E1 E2]; rewrite ?E1, ?E2;
    (destruct (Nat.eqb m 0 || Nat.eqb (2 * m) (length t)); [|reflexivity]); apply C_eq; cbn; ring.
Qed.

(** the mean level is never retained: both parts have mean zero *)
Theorem C46_mean_discarded (t : list R) (sigs : list (list R)) (x w : list R) (h detLim : R) :
  accepted t sigs x w -> 0 < h -> 0 <= detLim ->
  exists i r, decompose_linear_ZS (N:=NX) (F t) (matrix (length t) sigs) (Fin h) (F x) (F w) (Fin detLim) = Ok (F i, F r)
    /\ length i = length t /\ length r = length t /\ Rmean i = 0 /\ Rmean r = 0.
Proof.
  intros HA Hh HL. assert (Hn : (2 <= length t)%nat) by apply (acc_axis _ _ _ _ HA).
  eexists _, _. split; [apply decompose_F; auto|]. rewrite !back_length. do 2 (split; [auto|]).
  assert (M : forall Y, Y 0%nat = RtoC 0 -> Rmean (back (length t) Y) = 0).
  { intros Y E. assert (E0 := coef_back (length t) Y 0 ltac:(lia) ltac:(lia)). cbn [Nat.eqb orb] in E0. rewrite E in E0. cbn [fst RtoC] in E0.
    unfold coef in E0. rewrite (Csum_ext _ _ (fun j => RtoC (nth j (back (length t) Y) 0))) in E0.
    - rewrite RS_C in E0. apply RtoC_inj in E0. unfold Rmean. rewrite Rsum_RS, E0. unfold Rdiv. ring.
    - intros j Hj. rewrite Nat.mul_0_r. cbn [INR]. replace (- (2 * PI * 0 / INR (length (back (length t) Y)))) with 0 by (unfold Rdiv; ring). rewrite ei_0. ring. }
  destruct (Y_not t h x w detLim sigs 0) as [Ei Er]; [rewrite wavenr_0; apply retained_0; auto|].
  split; apply M; auto.
Qed.

(** only the distances between the gauges matter *)
Theorem C46_shift (t : list R) (sigs : list (list R)) (x w : list R) (h detLim c : R) :
  accepted t sigs x w -> 0 < h -> 0 <= detLim ->
  decompose_linear_ZS (N:=NX) (F t) (matrix (length t) sigs) (Fin h) (F (map (fun v => v + c) x)) (F w) (Fin detLim)
  = decompose_linear_ZS (N:=NX) (F t) (matrix (length t) sigs) (Fin h) (F x) (F w) (Fin detLim).
Proof.
  intros HA Hh HL. assert (N : forall j, (j < length x)%nat -> nth j (map (fun v => v + c) x) 0 = nth j x 0 + c).
  { intros j Hj. rewrite (nth_indep _ 0 (0 + c)) by (rewrite map_length; auto). apply (map_nth (fun v => v + c)). }
  assert (A2 : accepted t sigs (map (fun v => v + c) x) w).
  { pose proof HA as HA'. destruct HA'. constructor; auto; [rewrite map_length; auto|]. intros i j Hij. rewrite map_length in Hij. rewrite !N by lia.
    specialize (acc_sorted i j Hij). lra. }
  rewrite !decompose_F by auto. assert (Hx : (0 < length x)%nat) by (destruct HA; lia).
  assert (D : forall j, (j < length x)%nat -> dist (map (fun v => v + c) x) j = dist x j) by (intros; unfold dist; rewrite !N by auto; ring).
  assert (SE : forall k, separation w (map (fun v => v + c) x) k = separation w x k).
  { intros k. unfold separation. rewrite map_length. apply RS_ext. intros i Hi. apply RS_ext. intros j Hj. rewrite !N by lia.
    replace (nth i x 0 + c - (nth j x 0 + c)) with (nth i x 0 - nth j x 0) by ring. reflexivity. }
  assert (SI : forall m, Yi t h (map (fun v => v + c) x) w detLim sigs m = Yi t h x w detLim sigs m
                      /\ Yr t h (map (fun v => v + c) x) w detLim sigs m = Yr t h x w detLim sigs m).
  { intros m. unfold Yi, Yr. rewrite SE, map_length.
    assert (Q : forall X k, a11 (wof w) (dist (map (fun v => v + c) x)) k (length x) = a11 (wof w) (dist x) k (length x)
       /\ a22 (wof w) (dist (map (fun v => v + c) x)) k (length x) = a22 (wof w) (dist x) k (length x)
       /\ b1 (wof w) (dist (map (fun v => v + c) x)) X k (length x) = b1 (wof w) (dist x) X k (length x)
       /\ b2 (wof w) (dist (map (fun v => v + c) x)) X k (length x) = b2 (wof w) (dist x) X k (length x)).
    { intros X k. unfold a11, a22, b1, b2. repeat split; apply Csum_ext; intros j Hj; rewrite D by auto; reflexivity. }
    unfold solI, solR, det. destruct (Q (amp sigs m) (wavenr t h m)) as (-> & -> & -> & ->). auto. }
  f_equal. f_equal; f_equal; unfold back; apply map_ext; intros l; f_equal; apply IDF_ext; intros j Hj; unfold full;
    rewrite ?(proj1 (SI j)), ?(proj1 (SI (length t - j)%nat)), ?(proj2 (SI j)), ?(proj2 (SI (length t - j)%nat)); reflexivity.
Qed.

(** *** Plane waves *)
Lemma DF_harmonic n m c mu : (0 < m < n)%nat -> (mu < n)%nat ->
  DF n (fun l => c * tw 1 n l m)%C mu = if Nat.eq_dec mu m then (RtoC (INR n) * c)%C else RtoC 0.
Proof.
  intros Hm Hmu. unfold DF. rewrite (Csum_ext _ _ (fun j => c * (tw (-1) n mu j * tw 1 n j m)))%C.
  - rewrite Csum_scal, ortho by lia. destruct (Nat.eq_dec mu m); ring.
  - intros j Hj. rewrite (tw_sym (-1) n mu j). ring.
Qed.
Lemma coef_cos n m p mu : (1 <= m)%nat -> (2 * m < n)%nat -> (mu <= n / 2)%nat ->
  DF n (fun l => RtoC (cos (2 * PI * INR (l * m) / INR n + p))) mu
  = if Nat.eq_dec mu m then (RtoC (INR n / 2) * ei p)%C else RtoC 0.
Proof.
  intros H1 H2 Hmu. assert (Hm2 : (2 * (n / 2) <= n)%nat) by (apply Nat.mul_div_le; lia).
  rewrite (DF_ext n _ (fun l => RtoC (/ 2) * ei p * tw 1 n l m + RtoC (/ 2) * ei (- p) * tw 1 n l (n - m)))%C.
  - assert (E : DF n (fun l => RtoC (/ 2) * ei p * tw 1 n l m + RtoC (/ 2) * ei (- p) * tw 1 n l (n - m))%C mu
        = (DF n (fun l => RtoC (/ 2) * ei p * tw 1 n l m) mu + DF n (fun l => RtoC (/ 2) * ei (- p) * tw 1 n l (n - m)) mu)%C).
    { unfold DF. rewrite <- Csum_plus. apply Csum_ext. intros. ring. }
    rewrite E, !DF_harmonic by lia. destruct (Nat.eq_dec mu (n - m)); [lia|]. destruct (Nat.eq_dec mu m); [|ring].
    unfold Rdiv. rewrite RtoC_mult. ring.
  - intros l Hl. rewrite tw_mirror', <- tw_conj by lia. unfold tw.
    replace (1 * 2 * PI * INR (l * m) / INR n) with (2 * PI * INR (l * m) / INR n) by (unfold Rdiv; ring).
    set (q := 2 * PI * INR (l * m) / INR n). rewrite cos_plus. apply C_eq; cbn; rewrite cos_neg, sin_neg; field.
Qed.
(** a sum of the first M harmonics *)
Definition harmonics (n M : nat) (a p : nat -> R) : list R :=
  map (fun l => RS M (fun m => a (S m) * cos (2 * PI * INR (l * S m) / INR n + p (S m)))) (seq 0 n).
Lemma harmonics_length n M a p : length (harmonics n M a p) = n.
Proof. unfold harmonics. rewrite map_length, seq_length. reflexivity. Qed.
Lemma coef_harmonics n M a p mu : (2 * M < n)%nat -> (mu <= n / 2)%nat ->
  coef (harmonics n M a p) mu = if Nat.eqb mu 0 || Nat.ltb M mu then RtoC 0 else (RtoC (INR n / 2 * a mu) * ei (p mu))%C.
Proof.
  intros HM Hmu. rewrite coef_DF, harmonics_length.
  rewrite (DF_ext n _ (fun l => RtoC (RS M (fun m => a (S m) * cos (2 * PI * INR (l * S m) / INR n + p (S m)))))).
  2:{ intros j Hj. unfold harmonics. rewrite map_seq_nth by auto. reflexivity. }
  clear - HM Hmu. set (g := fun l m => a (S m) * cos (2 * PI * INR (l * S m) / INR n + p (S m))). change (DF n (fun l => RtoC (RS M (g l))) mu = if Nat.eqb mu 0 || Nat.ltb M mu then RtoC 0 else (RtoC (INR n / 2 * a mu) * ei (p mu))%C).
  induction M as [|M IH].
  - unfold DF. rewrite Csum_zero by (intros; rewrite RS_0; ring). destruct mu; reflexivity.
  - assert (E : DF n (fun l => RtoC (RS (S M) (g l))) mu
      = Cplus (DF n (fun l => RtoC (RS M (g l))) mu)
         (Cmult (RtoC (a (S M))) (DF n (fun l => RtoC (cos (2 * PI * INR (l * S M) / INR n + p (S M)))) mu))).
    { unfold DF. rewrite <- Csum_scal, <- Csum_plus. apply Csum_ext. intros. rewrite RS_S, RtoC_plus. unfold g at 2. rewrite RtoC_mult. ring. }
    rewrite E, IH, coef_cos by lia. clear E IH.
    destruct (Nat.eq_dec mu (S M)) as [->|].
    + replace (Nat.eqb (S M) 0) with false by reflexivity. replace (Nat.ltb M (S M)) with true by (symmetry; apply Nat.ltb_lt; lia).
      replace (Nat.ltb (S M) (S M)) with false by (symmetry; apply Nat.ltb_ge; lia). cbn [orb]. rewrite (RtoC_mult (INR n / 2)). ring.
    + destruct (Nat.eqb mu 0); cbn [orb]; [ring|]. destruct (Nat.ltb_spec M mu), (Nat.ltb_spec (S M) mu); try lia; ring.
Qed.

(** waves with frequencies f_m = m / (n dt), m = 1 .. M, below half the sampling frequency, of amplitude a m and phase p m travelling
    in the positive direction, and of amplitude b m and phase q m travelling in the negative direction: *)
Definition wave_field (n M : nat) (dt : R) (k a p b q : nat -> R) (time position : R) : R :=
  RS M (fun i => let m := S i in let omega := 2 * PI * (INR m / (INR n * dt)) in
    a m * cos (omega * time - k m * position + p m) + b m * cos (omega * time + k m * position + q m)).
Theorem C46_plane_waves (t0 dt : R) (n M : nat) (x w : list R) (h detLim : R) (k a p b q : nat -> R) :
  let t := axis t0 dt n in
  let field := wave_field n M dt k a p b q in
  let at_gauge X := map (fun time => field time (X - nth 0 x 0)) t in
  accepted t (map at_gauge x) x w -> 0 < dt -> (2 * M < n)%nat -> 0 < h -> 0 <= detLim -> wave_numbers t h k ->
  (forall m, (1 <= m <= M)%nat -> retained detLim w x (k m)) ->
  decompose_linear_ZS (N:=NX) (F t) (matrix (length t) (map at_gauge x)) (Fin h) (F x) (F w) (Fin detLim)
  = Ok (F (map (fun time => wave_field n M dt k a p (fun _ => 0) q time 0) t),
        F (map (fun time => wave_field n M dt k (fun _ => 0) p b q time 0) t)).
Proof.
  intros t field at_gauge HA Hdt HM Hh HL HK HR.
  assert (Lt : length t = n) by apply axis_length. assert (Hn0 : (0 < n)%nat) by lia. assert (Hn : INR n <> 0) by (apply not_0_INR; lia).
  set (om := fun m => 2 * PI * (INR m / (INR n * dt)) * t0).
  (* the signal at one position is a sum of harmonics *)
  assert (HF : forall A P B Q pos, map (fun time => wave_field n M dt k A P B Q time pos) t
    = lincomb 1 1 (harmonics n M A (fun m => om m + P m - k m * pos)) (harmonics n M B (fun m => om m + Q m + k m * pos))).
  { intros A P B Q pos. unfold lincomb. apply (nth_ext' _ _ 0); [rewrite map2_length, !harmonics_length, map_length; lia|].
    intros l Hl. rewrite map_length, Lt in Hl.
    rewrite (map2_nth _ _ _ l 0 0 0) by (rewrite harmonics_length; auto). unfold harmonics. rewrite !(map_seq_nth (fun l => RS M _)) by auto.
    rewrite (nth_indep _ 0 (wave_field n M dt k A P B Q 0 pos)) by (rewrite map_length; lia).
    rewrite (map_nth (fun time => wave_field n M dt k A P B Q time pos)). unfold t. rewrite axis_nth by auto. unfold wave_field.
    rewrite !Rmult_1_l, <- RS_plus. apply RS_ext. intros i Hi. cbv zeta. unfold om.
    replace (2 * PI * (INR (S i) / (INR n * dt)) * (t0 + INR l * dt) - k (S i) * pos + P (S i))
      with (2 * PI * INR (l * S i) / INR n + (2 * PI * (INR (S i) / (INR n * dt)) * t0 + P (S i) - k (S i) * pos)) by (rewrite mult_INR; field; split; auto; lra).
    replace (2 * PI * (INR (S i) / (INR n * dt)) * (t0 + INR l * dt) + k (S i) * pos + Q (S i))
      with (2 * PI * INR (l * S i) / INR n + (2 * PI * (INR (S i) / (INR n * dt)) * t0 + Q (S i) + k (S i) * pos)) by (rewrite mult_INR; field; split; auto; lra).
    reflexivity. }
  assert (HC : forall A P B Q pos mu, (mu <= n / 2)%nat -> coef (map (fun time => wave_field n M dt k A P B Q time pos) t) mu
    = if Nat.eqb mu 0 || Nat.ltb M mu then RtoC 0
      else (RtoC (INR n / 2) * (RtoC (A mu) * ei (om mu + P mu - k mu * pos) + RtoC (B mu) * ei (om mu + Q mu + k mu * pos)))%C).
  { intros A P B Q pos mu Hmu. rewrite HF. unfold lincomb. rewrite coef_linear by (rewrite !harmonics_length; auto).
    rewrite !coef_harmonics by auto. destruct (Nat.eqb mu 0 || Nat.ltb M mu); [ring|]. rewrite !RtoC_mult. ring. }
  apply (C46_recovers_exactly t (map at_gauge x) x w h detLim k); auto; try (rewrite map_length; reflexivity).
  - intros mu j Hmu Hj _. rewrite Lt in Hmu. unfold gauge. rewrite (nth_indep _ [] (at_gauge 0)) by (rewrite map_length; auto).
    rewrite (map_nth at_gauge). unfold at_gauge, field. rewrite !HC by auto. unfold superposed. fold (dist x j).
    destruct (Nat.eqb mu 0 || Nat.ltb M mu); [ring|].
    replace (om mu + p mu - k mu * dist x j) with (om mu + p mu - k mu * 0 + - (k mu * dist x j)) by ring.
    replace (om mu + q mu + k mu * dist x j) with (om mu + q mu + k mu * 0 + k mu * dist x j) by ring.
    rewrite !ei_plus. ring.
  - intros mu Hmu HN. rewrite Lt in Hmu. rewrite !HC by auto. destruct (Nat.eqb mu 0 || Nat.ltb M mu) eqn:B; [auto|].
    exfalso. apply HN, HR. apply orb_false_iff in B. destruct B as [B1 B2]. apply Nat.eqb_neq in B1. apply Nat.ltb_ge in B2. lia.
Qed.

Lemma wavenr_pos t h m : good_axis t -> 0 < h -> (0 < m)%nat -> 0 < wavenr t h m.
Proof.
  intros G Hh Hm. unfold wavenr, rk. assert (D := dfreq_pos t G). assert (P := PI_RGT_0). assert (0 < INR m) by (apply lt_0_INR; auto).
  rewrite rsign_pos by (apply Rmult_lt_0_compat; nra).
  assert (Q := rq_pos _ (rclamp_pos (2 * PI * (INR m * dfreq t) * (2 * PI * (INR m * dfreq t)) * h / grav))). apply Rdiv_lt_0_compat; lra.
Qed.
(** two gauges a quarter of a wave length apart *)
Example C46_witness : exists x k,
  let at_gauge X := map (fun time => wave_field 4 1 1 k (fun _ => 2) (fun _ => 0) (fun _ => 1) (fun _ => 1) time (X - nth 0 x 0)) (axis 0 1 4) in
  accepted (axis 0 1 4) (map at_gauge x) x [1; 1] /\ wave_numbers (axis 0 1 4) 5 k
  /\ (forall m, (1 <= m <= 1)%nat -> retained (125 / 1000) [1; 1] x (k m)).
Proof.
  set (k := wavenr (axis 0 1 4) 5). assert (G : good_axis (axis 0 1 4)) by (apply axis_good; [lia|lra]).
  assert (K := wavenr_pos (axis 0 1 4) 5 1 G ltac:(lra) ltac:(lia)). fold k in K.
  assert (P := PI_RGT_0). assert (X : 0 < PI / 2 / k 1%nat) by (apply Rdiv_lt_0_compat; lra).
  exists [0; PI / 2 / k 1%nat], k. cbv zeta. split; [|split].
  - constructor; auto; try (cbn; lia).
    + intros s Hs. apply in_map_iff in Hs. destruct Hs as (v & <- & _). apply map_length.
    + intros i j Hij. cbn [length] in Hij. assert (i = 0%nat /\ j = 1%nat) as [-> ->] by lia. cbn. lra.
    + left. intros v [<-|[<-|[]]]; lra.
    + cbn. lra.
  - apply wn_exists. lra.
  - intros m Hm. assert (m = 1%nat) as -> by lia. unfold retained, separation. cbn [length]. rewrite !RS_S, !RS_0. cbn [nth].
    replace (k 1%nat * (PI / 2 / k 1%nat - 0)) with (PI / 2) by (field; lra). rewrite sin_PI2. unfold Rsqr. rewrite Rabs_pos_eq; lra.
Qed.

(** ** C48 Two gauges *)
Lemma two_sum w d X k : d 0%nat = 0 -> sep w d k 2 <> 0 -> (solI w d X k 2 + solR w d X k 2 = X 0%nat)%C.
Proof.
  intros D0 H. apply det_nz in H. unfold solI, solR, det in *. unfold a11, a22, b1, b2, W in *. rewrite !Csum_S, !RS_S, !Csum_0, !RS_0 in *. rewrite !D0 in *.
  rewrite !Rmult_0_r, Ropp_0, ei_0 in *.
  replace (- (2 * k * d 1%nat)) with (- (k * d 1%nat) + - (k * d 1%nat)) in * by ring. replace (2 * k * d 1%nat) with (k * d 1%nat + k * d 1%nat) in * by ring.
  rewrite !ei_plus in *. assert (Q := ei_inv (k * d 1%nat)). set (u := ei (- (k * d 1%nat))) in *. set (v := ei (k * d 1%nat)) in *.
  rewrite !RtoC_plus in *. set (w0 := RtoC (w 0%nat)) in *. set (w1 := RtoC (w 1%nat)) in *. set (X0 := X 0%nat). set (X1 := X 1%nat). clearbody u v w0 w1 X0 X1.
  set (D := ((RtoC 0 + w0 * 1 + w1 * (u * u)) * (RtoC 0 + w0 * 1 + w1 * (v * v)) - (RtoC 0 + w0 + w1) * (RtoC 0 + w0 + w1))%C) in *.
  set (A22 := (RtoC 0 + w0 * 1 + w1 * (v * v))%C) in *. set (A11 := (RtoC 0 + w0 * 1 + w1 * (u * u))%C) in *.
  set (B1 := (RtoC 0 + w0 * X0 * 1 + w1 * X1 * u)%C). set (B2 := (RtoC 0 + w0 * X0 * 1 + w1 * X1 * v)%C). set (S0 := (RtoC 0 + w0 + w1)%C) in *.
  assert (U : u <> RtoC 0) by (intros E; rewrite E in Q; replace (v * RtoC 0)%C with (RtoC 0) in Q by ring; apply RtoC_inj in Q; lra).
  assert (V : v = (/ u)%C) by (rewrite <- (Cmult_1_l (/ u)%C), <- Q; field; auto).
  assert (E : ((A22 * B1 - S0 * B2) + (- S0 * B1 + A11 * B2) = X0 * D)%C).
  { unfold D, A22, A11, S0, B1, B2. rewrite V. field. auto. }
  replace X0 with ((X0 * D) / D)%C by (field; auto). rewrite <- E. unfold Cdiv. ring.
Qed.
Theorem C48_two_gauges (t s1 s2 x w : list R) (h detLim : R) (k : nat -> R) :
  accepted t [s1; s2] x w -> 0 < h -> 0 <= detLim -> wave_numbers t h k ->
  exists i r, decompose_linear_ZS (N:=NX) (F t) (matrix (length t) [s1; s2]) (Fin h) (F x) (F w) (Fin detLim) = Ok (F i, F r)
    /\ length i = length t /\ length r = length t
    /\ forall m, (m <= length t / 2)%nat ->
         let kept := detLim < Rabs (nth 0 w 0 * nth 1 w 0 * Rsqr (sin (k m * (nth 1 x 0 - nth 0 x 0)))) in
         (kept -> coef (map2 Rplus i r) m = coef s1 m) /\ (~ kept -> coef (map2 Rplus i r) m = RtoC 0).
Proof.
  intros HA Hh HL HK. assert (Hn : (2 <= length t)%nat) by apply (acc_axis _ _ _ _ HA).
  assert (L1 : length s1 = length t) by (apply (acc_sig _ _ _ _ HA); left; auto).
  assert (Lx : length x = 2%nat) by apply (acc_x _ _ _ _ HA).
  eexists _, _. split; [apply decompose_F; auto|]. rewrite !back_length. do 2 (split; [auto|]).
  intros m Hm kept. assert (KR : kept <-> retained detLim w x (k m)).
  { unfold kept, retained, separation. rewrite Lx, !RS_S, !RS_0.
    replace (0 + 0 + (0 + nth 1 w 0 * nth 0 w 0 * Rsqr (sin (k m * (nth 1 x 0 - nth 0 x 0)))))
      with (nth 0 w 0 * nth 1 w 0 * Rsqr (sin (k m * (nth 1 x 0 - nth 0 x 0)))) by ring. reflexivity. }
  assert (CE : coef (map2 Rplus (back (length t) (Yi t h x w detLim [s1; s2])) (back (length t) (Yr t h x w detLim [s1; s2]))) m
     = (coef (back (length t) (Yi t h x w detLim [s1; s2])) m + coef (back (length t) (Yr t h x w detLim [s1; s2])) m)%C).
  { assert (CL := coef_linear (back (length t) (Yi t h x w detLim [s1; s2])) (back (length t) (Yr t h x w detLim [s1; s2])) 1 1 m).
    rewrite !Cmult_1_l in CL. rewrite <- CL by (rewrite !back_length; auto). f_equal.
    apply (nth_ext' _ _ 0); [rewrite !map2_length; auto|]. intros l Hl. rewrite map2_length, !back_length, Nat.min_id in Hl.
    rewrite !(map2_nth _ _ _ l 0 0 0) by (rewrite back_length; auto). ring. }
  rewrite CE. clear CE. rewrite !coef_back by lia. rewrite KR. rewrite (wn_eq t h k m) by auto. split; intros HR.
  - assert (S := ret_sep _ _ _ _ HL HR). rewrite Yi_ret, Yr_ret by auto. rewrite Lx in *.
    assert (E := two_sum (wof w) (dist x) (amp [s1; s2] m) (wavenr t h m) ltac:(unfold dist; ring) S). change (amp [s1; s2] m 0) with (coef s1 m) in E.
    destruct (Nat.eqb m 0 || Nat.eqb (2 * m) (length t)) eqn:B; [|exact E].
    rewrite <- RtoC_plus. rewrite <- E. apply C_eq; [reflexivity|]. rewrite E. symmetry. apply coef_real; [|lia].
    apply orb_true_iff in B. destruct B as [B|B]; apply Nat.eqb_eq in B; lia.
  - destruct (Y_not t h x w detLim [s1; s2] m HR) as [-> ->]. destruct (Nat.eqb m 0 || Nat.eqb (2 * m) (length t)); cbn [fst RtoC]; ring.
Qed.
(** so they add up to the first signal itself when that has nothing at the discarded frequencies *)
Theorem C48_two_gauges_exact (t s1 s2 x w : list R) (h detLim : R) (k : nat -> R) :
  accepted t [s1; s2] x w -> 0 < h -> 0 <= detLim -> wave_numbers t h k ->
  exists i r, decompose_linear_ZS (N:=NX) (F t) (matrix (length t) [s1; s2]) (Fin h) (F x) (F w) (Fin detLim) = Ok (F i, F r)
    /\ (map2 Rplus i r = s1 <-> forall m, (m <= length t / 2)%nat -> ~ retained detLim w x (k m) -> coef s1 m = RtoC 0).
Proof.
  intros HA Hh HL HK. destruct (C48_two_gauges t s1 s2 x w h detLim k HA Hh HL HK) as (i & r & E & Li & Lr & H).
  assert (L1 : length s1 = length t) by (apply (acc_sig _ _ _ _ HA); left; auto).
  assert (Lx : length x = 2%nat) by apply (acc_x _ _ _ _ HA).
  exists i, r. split; [exact E|]. assert (LL : length (map2 Rplus i r) = length t) by (rewrite map2_length; lia).
  assert (KR : forall m, detLim < Rabs (nth 0 w 0 * nth 1 w 0 * Rsqr (sin (k m * (nth 1 x 0 - nth 0 x 0)))) <-> retained detLim w x (k m)).
  { intros m. unfold retained, separation. rewrite Lx, !RS_S, !RS_0.
    replace (0 + 0 + (0 + nth 1 w 0 * nth 0 w 0 * Rsqr (sin (k m * (nth 1 x 0 - nth 0 x 0)))))
      with (nth 0 w 0 * nth 1 w 0 * Rsqr (sin (k m * (nth 1 x 0 - nth 0 x 0)))) by ring. reflexivity. }
  split.
  - intros Es m Hm D. destruct (H m Hm) as [_ H2]. rewrite Es in H2. apply H2. intros Q. apply D, KR, Q.
  - intros HZ. apply coef_determines; [lia|]. rewrite LL. intros m Hm. destruct (H m Hm) as [H1 H2].
    destruct (Rlt_dec detLim (Rabs (separation w x (k m)))) as [D|D].
    + apply H1, KR, D.
    + rewrite (HZ m Hm D). apply H2. intros Q. apply D, KR, Q.
Qed.
(** the mean level of the first gauge is always lost: with a non-zero mean the parts do not add up to the signal *)
Theorem C48_mean_lost_refuted : ~ (forall (t s1 s2 x w i r : list R) (h detLim : R), accepted t [s1; s2] x w -> 0 < h -> 0 <= detLim ->
  decompose_linear_ZS (N:=NX) (F t) (matrix (length t) [s1; s2]) (Fin h) (F x) (F w) (Fin detLim) = Ok (F i, F r) -> map2 Rplus i r = s1).
Proof.
  intros H. set (t := axis 0 1 2). assert (G : good_axis t) by (apply axis_good; [lia|lra]).
  assert (HA : accepted t [[1; 1]; [1; 1]] [0; 1] [1; 1]).
  { constructor; auto; try (cbn; lia).
    - intros s [<-|[<-|[]]]; reflexivity.
    - intros i j Hij. cbn [length] in Hij. assert (i = 0%nat /\ j = 1%nat) as [-> ->] by lia. cbn. lra.
    - left. intros v [<-|[<-|[]]]; lra.
    - cbn. lra. }
  destruct (C46_mean_discarded t [[1; 1]; [1; 1]] [0; 1] [1; 1] 5 (1 / 8) HA ltac:(lra) ltac:(lra)) as (i & r & E & Li & Lr & Mi & Mr).
  assert (Q := H t _ _ _ _ i r 5 (1 / 8) HA ltac:(lra) ltac:(lra) E). change (length t) with 2%nat in *.
  destruct i as [|i0 [|i1 [|]]]; try discriminate. destruct r as [|r0 [|r1 [|]]]; try discriminate. cbn in Q. injection Q as Q1 Q2.
  unfold Rmean, Rsum in *. cbn in Mi, Mr. replace (/ (1 + 1)) with (/ 2) in * by (f_equal; lra). unfold Rdiv in *. replace (1 + 1) with 2 in * by ring. lra.
Qed.
Example C48_witness : exists s1 s2 x k, accepted (axis 0 1 4) [s1; s2] x [1; 1] /\ wave_numbers (axis 0 1 4) 5 k
  /\ (forall m, (m <= 2)%nat -> ~ retained (125 / 1000) [1; 1] x (k m) -> coef s1 m = RtoC 0) /\ nth 0 s1 0 <> 0.
Proof.
  destruct C46_witness as (x & k & HA & HK & HR). cbv zeta in HA.
  assert (Lx : length x = 2%nat) by (destruct HA; cbn [length] in *; rewrite map_length in *; lia).
  destruct x as [|x0 [|x1 [|]]]; try discriminate. cbn [map] in HA.
  eexists [2; 0; -2; 0], [0; 0; 0; 0], [x0; x1], k. split; [|split; [exact HK|split]].
  - destruct HA. constructor; auto; try (cbn; lia). intros s [<-|[<-|[]]]; reflexivity.
  - intros m Hm HN. destruct m as [|[|[|]]]; try lia.
    + unfold coef. cbn [length]. rewrite !Csum_S, Csum_0. cbn [nth]. rewrite !Nat.mul_0_r. cbn [INR].
      replace (- (2 * PI * 0 / (1 + 1 + 1 + 1))) with 0 by field. rewrite ei_0. apply C_eq; cbn; ring.
    + exfalso. apply HN, HR. lia.
    + assert (E : forall l, ei (- (2 * PI * INR (l * 2) / INR 4)) = ei (- (PI * INR l))).
      { intros l. f_equal. rewrite mult_INR. cbn [INR]. field. }
      unfold coef. cbn [length]. rewrite !Csum_S, Csum_0. cbn [nth]. rewrite !E. cbn [INR].
      replace (- (PI * 0)) with 0 by ring. replace (ei (- (PI * (1 + 1)))) with (RtoC 1).
      2:{ replace (- (PI * (1 + 1))) with (- (2 * PI * INR 1)) by (cbn; ring). rewrite ei_opp, ei_period. apply C_eq; cbn; ring. }
      rewrite ei_0.
      apply C_eq; cbn; ring.
  - cbn. lra.
Qed.
