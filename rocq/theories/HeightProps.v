(** * The weight of each frequency in a spectral moment, and what it means for records: C69 *)

From Coq Require Import Reals ZArith String List Bool Lra Lia.
From Coquelicot Require Import Complex.
From Verif Require Import Num XR Spec XRFacts RSum Engine EngineProps FourierSpec TimeProps TimeProps3 SeriesProps FourierFacts BandProps
  DFT DensityProps AvgProps SpectralModel WaveModel SpectrumModel SeriesModel SimpsonFacts MomentProps PeakProps ParamProps GetterProps DecompClaims.
Import ListNotations.
Open Scope R_scope.

(** weight, in steps, of point k of n equidistant points in Simpson's rule (with the end correction for an even number of points) *)
Definition simpson_weight (n k : nat) : R :=
  if Nat.eqb n 2 then 1 / 2
  else if Nat.eqb k 0 then 1 / 3
  else if Nat.odd n then
    if Nat.eqb k (n - 1) then 1 / 3 else if Nat.odd k then 4 / 3 else 2 / 3
  else
    if Nat.eqb k (n - 1) then 5 / 12 else if Nat.eqb k (n - 2) then 1 else if Nat.eqb k (n - 3) then 5 / 4
    else if Nat.odd k then 4 / 3 else 2 / 3.

(** ** Uniform Simpson sums *)
Definition bw (n k : nat) : R :=
  let last := if Nat.odd n then (n - 1)%nat else (n - 2)%nat in
  if Nat.eqb last 0 then 0 else if Nat.ltb last k then 0 else if Nat.eqb k 0 then 1 / 3 else if Nat.eqb k last then 1 / 3
  else if Nat.odd k then 4 / 3 else 2 / 3.
Lemma bw_0 n : (1 <= n)%nat -> bw (S (S n)) 0 = 1 / 3.
Proof. intros H. unfold bw. rewrite Nat.odd_succ_succ. destruct (Nat.odd n) eqn:O; destruct n as [|[|n]]; try lia; try discriminate; reflexivity. Qed.
Lemma bw_1 n : (1 <= n)%nat -> bw (S (S n)) 1 = 4 / 3.
Proof. intros H. unfold bw. rewrite Nat.odd_succ_succ. destruct (Nat.odd n) eqn:O; destruct n as [|[|n]]; try lia; try discriminate; cbn; try reflexivity. Qed.
Lemma odd_even n : Nat.odd n = false -> (exists k, n = 2 * k)%nat.
Proof. intros H. rewrite <- Nat.negb_even in H. apply negb_false_iff, Nat.even_spec in H. destruct H as [k ->]. exists k. lia. Qed.
Lemma bw_SS n k : (1 <= n)%nat -> bw (S (S n)) (S (S k)) = (if Nat.eqb k 0 then 1 / 3 else 0) + bw n k.
Proof.
  intros H. unfold bw. rewrite !Nat.odd_succ_succ. 
  destruct (Nat.odd n) eqn:O.
  - assert (n <> 2)%nat by (intros ->; discriminate).
    destruct (Nat.eqb_spec (n - 1) 0), (Nat.eqb_spec (S (S n) - 1) 0), (Nat.ltb_spec (n - 1) k), (Nat.ltb_spec (S (S n) - 1) (S (S k))), (Nat.eqb_spec k 0),
      (Nat.eqb_spec (S (S k)) (S (S n) - 1)), (Nat.eqb_spec k (n - 1)), (Nat.eqb_spec (S (S k)) 0); try lia; try lra; try (destruct (Nat.odd k); lra); subst k; change (Nat.odd 0) with false; lra.
  - apply odd_even in O. destruct O as [q ->].
    destruct (Nat.eqb_spec (2 * q - 2) 0), (Nat.eqb_spec (S (S (2 * q)) - 2) 0), (Nat.ltb_spec (2 * q - 2) k), (Nat.ltb_spec (S (S (2 * q)) - 2) (S (S k))), (Nat.eqb_spec k 0),
      (Nat.eqb_spec (S (S k)) (S (S (2 * q)) - 2)), (Nat.eqb_spec k (2 * q - 2)), (Nat.eqb_spec (S (S k)) 0); try lia; try lra; try (destruct (Nat.odd k); lra); subst k; change (Nat.odd 0) with false; lra.
Qed.
Lemma rpanel_uniform x d y0 y1 y2 : d <> 0 -> rpanel x (x + d) (x + 2 * d) y0 y1 y2 = d / 3 * (y0 + 4 * y1 + y2).
Proof.
  intros H. unfold rpanel. replace (x + d - x) with d by ring. replace (x + 2 * d - (x + d)) with d by ring. field. auto.
Qed.
Lemma rlast_uniform x d y0 y1 y2 : d <> 0 -> rlast x (x + d) (x + 2 * d) y0 y1 y2 = d * (5 / 12 * y2 + 2 / 3 * y1 - 1 / 12 * y0).
Proof.
  intros H. unfold rlast. replace (x + d - x) with d by ring. replace (x + 2 * d - (x + d)) with d by ring. field. repeat split; auto; intros E; apply H; lra.
Qed.
Lemma axis_SS f0 d n : axis f0 d (S (S n)) = f0 :: (f0 + d) :: axis (f0 + 2 * d) d n.
Proof.
  apply (nth_ext' _ _ 0); [cbn [length]; rewrite !axis_length; auto|]. intros i Hi. rewrite axis_length in Hi. rewrite axis_nth by auto.
  destruct i as [|[|i]]; cbn [nth]; [cbn; ring|cbn; ring|]. rewrite axis_nth by lia. rewrite !S_INR. ring.
Qed.
Lemma rbasic_uniform d : d <> 0 -> forall n f0 y, length y = n ->
  rbasic (axis f0 d n) y = d * RS n (fun k => bw n k * nth k y 0).
Proof.
  intros Hd. induction n as [n IH] using lt_wf_ind. intros f0 y Ly.
  assert (small : (n <= 2)%nat -> rbasic (axis f0 d n) y = d * RS n (fun k => bw n k * nth k y 0)).
  { intros H. rewrite RS_zero.
    - destruct n as [|[|[|]]]; try lia; destruct y as [|y0 [|y1 [|]]]; try discriminate; cbn; ring.
    - intros k Hk. unfold bw. destruct n as [|[|[|]]]; try lia; cbn; ring. }
  destruct n as [|[|n]]; [apply small; lia|apply small; lia|]. destruct n as [|n]; [apply small; lia|].
  destruct y as [|y0 [|y1 [|y2 y]]]; try discriminate. rewrite !axis_SS.
  assert (A1 : exists r, axis (f0 + 2 * d) d (S n) = (f0 + 2 * d) :: r).
  { unfold axis. cbn [seq map]. eexists. f_equal. cbn. ring. }
  destruct A1 as [r Er]. rewrite Er.
  change (rpanel f0 (f0 + d) (f0 + 2 * d) y0 y1 y2 + rbasic ((f0 + 2 * d) :: r) (y2 :: y) = d * RS (S (S (S n))) (fun k => bw (S (S (S n))) k * nth k (y0 :: y1 :: y2 :: y) 0)).
  rewrite <- Er, IH by (cbn in *; lia). rewrite rpanel_uniform by auto.
  set (Q := RS (S n) (fun k => bw (S n) k * nth k (y2 :: y) 0)).
  rewrite (RS_shift (S (S n))), (RS_shift (S n)). rewrite bw_0, bw_1 by lia.
  rewrite (RS_ext (S n) _ (fun k => (if Nat.eqb k 0 then 1 / 3 else 0) * nth k (y2 :: y) 0 + bw (S n) k * nth k (y2 :: y) 0)).
  2:{ intros k Hk. cbv beta.
 rewrite bw_SS by lia. change (nth (S (S k)) (y0 :: y1 :: y2 :: y) 0) with (nth k (y2 :: y) 0). ring. }
  rewrite RS_plus. fold Q. rewrite (RS_shift n (fun k => (if Nat.eqb k 0 then 1 / 3 else 0) * nth k (y2 :: y) 0)).
  rewrite (RS_zero n) by (intros; cbn [Nat.eqb]; ring). 
  change (nth 0 (y0 :: y1 :: y2 :: y) 0) with y0. change (nth 1 (y0 :: y1 :: y2 :: y) 0) with y1. change (nth 0 (y2 :: y) 0) with y2. cbn [Nat.eqb].
  field.
Qed.
Lemma rsimp_uniform f0 d n y : d <> 0 -> length y = n -> (2 <= n)%nat ->
  rsimp (axis f0 d n) y = d * RS n (fun k => simpson_weight n k * nth k y 0).
Proof.
  intros Hd Ly Hn. unfold rsimp. rewrite axis_length. destruct (Nat.odd n) eqn:O.
  - rewrite rbasic_uniform by auto. f_equal. apply RS_ext. intros k Hk. f_equal. unfold bw, simpson_weight. rewrite O.
    assert (n <> 2)%nat by (intros ->; discriminate).
    destruct (Nat.eqb_spec n 2), (Nat.eqb_spec (n - 1) 0), (Nat.ltb_spec (n - 1) k); try lia. reflexivity.
  - destruct (Nat.eqb_spec n 2) as [->|N2].
    + rewrite !axis_nth by lia. rewrite !RS_S, RS_0. unfold simpson_weight. cbn [Nat.eqb]. change (INR 0) with 0. change (INR 1) with 1. field.
    + apply odd_even in O as O'. destruct O' as [q Hq]. destruct n as [|[|[|n]]]; try lia. 
      rewrite rbasic_uniform by auto.
      replace (S (S (S n)) - 3)%nat with n by lia. replace (S (S (S n)) - 2)%nat with (S n) by lia. replace (S (S (S n)) - 1)%nat with (S (S n)) by lia.
      rewrite !axis_nth by lia. replace (f0 + INR (S n) * d) with (f0 + INR n * d + d) by (rewrite S_INR; ring).
      replace (f0 + INR (S (S n)) * d) with (f0 + INR n * d + 2 * d) by (rewrite !S_INR; ring). rewrite rlast_uniform by auto.
      rewrite !RS_S.
      rewrite (RS_ext n (fun k => bw (S (S (S n))) k * nth k y 0) (fun k => simpson_weight (S (S (S n))) k * nth k y 0)).
      * unfold bw, simpson_weight. rewrite O.
        replace (S (S (S n)) - 3)%nat with n by lia. replace (S (S (S n)) - 2)%nat with (S n) by lia. replace (S (S (S n)) - 1)%nat with (S (S n)) by lia.
        destruct (Nat.eqb_spec (S (S (S n))) 2); [lia|]. cbn [Nat.eqb].
        replace (Nat.ltb (S n) n) with false by (symmetry; apply Nat.ltb_ge; lia). replace (Nat.ltb (S n) (S (S n))) with true by (symmetry; apply Nat.ltb_lt; lia).
        rewrite Nat.ltb_irrefl, !Nat.eqb_refl.
        replace (Nat.eqb n (S n)) with false by (symmetry; apply Nat.eqb_neq; lia). replace (Nat.eqb n (S (S n))) with false by (symmetry; apply Nat.eqb_neq; lia).
        replace (Nat.eqb (S n) (S (S n))) with false by (symmetry; apply Nat.eqb_neq; lia).
        replace (Nat.odd n) with true by (rewrite Nat.odd_succ_succ, Nat.odd_succ in O; rewrite <- Nat.negb_even, O; reflexivity).
        destruct (Nat.eqb_spec n 0) as [->|]; [cbn in O; discriminate|].
        match goal with |- d * (?S0 + _ + _ + _) + _ = _ => set (S1 := S0) end. field.
      * intros k Hk. f_equal. unfold bw, simpson_weight. rewrite O.
        destruct (Nat.eqb_spec (S (S (S n))) 2), (Nat.eqb_spec (S (S (S n)) - 2) 0), (Nat.ltb_spec (S (S (S n)) - 2) k), (Nat.eqb_spec k (S (S (S n)) - 1)), (Nat.eqb_spec k (S (S (S n)) - 2)),
          (Nat.eqb_spec k (S (S (S n)) - 3)); try lia. destruct (Nat.eqb k 0); reflexivity.
Qed.

(** ** C69 *)
(** a spectral moment over the whole axis is the weighted sum of the densities with the weights above *)
Theorem C69_weights (f0 df : R) (s : list R) (m : Z) :
  0 < f0 \/ (f0 = 0 /\ (0 <= m)%Z) -> 0 < df -> (2 <= length s)%nat ->
  let f := axis f0 df (length s) in
  moment f s m (Fin (-1)) (Fin (-1))
  = Ok (Fin (df * RS (length s) (fun k => simpson_weight (length s) k * (powerRZ (nth k f 0) m * nth k s 0)))).
Proof.
  intros H0 Hd Hn f. assert (Hf : freq_axis f) by (apply axis_freq; auto; lra).
  assert (Lf : length s = length f) by (unfold f; rewrite axis_length; auto).
  assert (E : Z.ltb m 0 && Reqb (nth 0 f 0) 0 = false).
  { unfold f. rewrite axis_nth by lia. change (INR 0) with 0. destruct H0 as [H0|[_ H0]].
    - rewrite Reqb_false by lra. apply andb_false_r.
    - apply Z.ltb_ge in H0. rewrite H0. reflexivity. }
  rewrite moment_all by auto.
  assert (W : forall l : list R, without_zero m f l = l) by (intros l; unfold without_zero; rewrite E; reflexivity).
  assert (Lg : length (weighted m f s) = length s) by (rewrite g_length, W; auto).
  rewrite W. unfold f at 1. rewrite rsimp_uniform by (auto; lra). do 3 f_equal. apply RS_ext. intros k Hk.
  rewrite g_nth by (auto; rewrite W; lia). rewrite !W. reflexivity.
Qed.
(** ... where a negative power drops the zero frequency first, the weights being those of the remaining points *)
Theorem C69_weights_negative (df : R) (s : list R) (m : Z) :
  (m < 0)%Z -> 0 < df -> (3 <= length s)%nat ->
  let f := axis 0 df (length s) in
  moment f s m (Fin (-1)) (Fin (-1))
  = Ok (Fin (df * RS (length s - 1) (fun k => simpson_weight (length s - 1) k * (powerRZ (nth (S k) f 0) m * nth (S k) s 0)))).
Proof.
  intros Hm Hd Hn f. assert (Hf : freq_axis f) by (apply axis_freq; auto; lra || lia).
  assert (Lf : length s = length f) by (unfold f; rewrite axis_length; auto).
  assert (E : Z.ltb m 0 && Reqb (nth 0 f 0) 0 = true).
  { unfold f. rewrite axis_nth by lia. change (INR 0) with 0. rewrite Reqb_true by lra. apply andb_true_iff; split; auto. apply Z.ltb_lt; auto. }
  rewrite moment_all by auto.
  assert (Lg : length (weighted m f s) = (length s - 1)%nat) by (rewrite g_length, wz_length, E; lia).
  assert (Wf : without_zero m f f = axis (0 + df) df (length s - 1)).
  { unfold f. rewrite wz_axis by lia. replace (Z.ltb m 0 && Reqb 0 0) with true; auto. symmetry. rewrite Reqb_true by lra. apply andb_true_iff; split; auto. apply Z.ltb_lt; auto. }
  rewrite Wf. rewrite rsimp_uniform by (auto; lra || lia). do 3 f_equal. apply RS_ext. intros k Hk.
  rewrite g_nth by (auto; rewrite Wf, axis_length; lia). rewrite !wz_nth, E, Nat.add_1_r. reflexivity.
Qed.
Lemma simpson_weight_bounds n k : (3 <= n)%nat -> 1 / 3 <= simpson_weight n k <= 4 / 3.
Proof.
  intros H. unfold simpson_weight.
  destruct (Nat.eqb_spec n 2); [lia|]. destruct (Nat.eqb k 0), (Nat.odd n), (Nat.eqb k (n - 1)), (Nat.odd k), (Nat.eqb k (n - 2)), (Nat.eqb k (n - 3)); lra.
Qed.
Lemma simpson_weight_last n : (3 <= n)%nat -> simpson_weight n (n - 1) <= 5 / 12.
Proof.
  intros H. unfold simpson_weight. destruct (Nat.eqb_spec n 2), (Nat.eqb_spec (n - 1) 0); try lia. rewrite Nat.eqb_refl. destruct (Nat.odd n); lra.
Qed.
Lemma simpson_weight_first n : (3 <= n)%nat -> simpson_weight n 0 = 1 / 3.
Proof. intros H. unfold simpson_weight. destruct (Nat.eqb_spec n 2); [lia|]. reflexivity. Qed.

(** the record, its object and its spectrum *)
Lemma record_spectrum (t0 dt : R) (x : list R) (at_ ax : arraylike NX) :
  0 < dt -> (2 <= length x)%nat ->
  let t := axis t0 dt (length x) in
  holds_vector (F t) at_ -> holds_vector (F x) ax ->
  exists s, series_init at_ ax = Ok s
    /\ series_spectrum_raw s (Fin 0) = Ok (fresh (N:=NX) (F (freqs (dfreq t) (nnyq (length x)))) (F (fine_density t x))).
Proof.
  intros Hdt H2 t Ht Hx. destruct (C16_uniform_accepted t0 dt x at_ ax Hdt H2 Ht Hx) as (s & tc & ws & Es & Et & Ex & _).
  exists s. split; auto. unfold series_spectrum_raw. rewrite Et, Ex. fold t.
  assert (Hg : good_axis t) by (apply axis_good; auto). assert (Lt : length x = length t) by (unfold t; rewrite axis_length; auto).
  assert (Hq := nnyq_le (length x) H2). assert (Hd := dfreq_pos t Hg).
  rewrite (spectrum_eq t x) by (auto using hv_flat).
  rewrite (C24_identity (freqs (dfreq t) (nnyq (length x))) (fine_density t x));
    [|rewrite freqs_length; lia|rewrite step_freqs by lia; lra|rewrite freqs_length, fine_length; auto|apply hv_flat|apply hv_flat].
  rewrite bind_Ok. apply (C63_object (freqs (dfreq t) (nnyq (length x))) (fine_density t x)).
  - rewrite freqs_length. lia.
  - intros E. apply (f_equal (@length R)) in E. rewrite fine_length in E. cbn in E. lia.
  - apply hv_flat.
  - apply hv_flat.
  - rewrite freqs_axis. apply axis_good; auto; lia.
  - rewrite fine_length, freqs_length. auto.
Qed.
Lemma default_getters (df : R) (s : list R) : 0 < df -> (3 <= length s)%nat -> 
  let f := freqs df (length s) in let sp := fresh (N:=NX) (F f) (F s) in
  exists m_1 m0 m1 m2 q T,
     m_1 = df * RS (length s - 1) (fun k => simpson_weight (length s - 1) k * (powerRZ (INR (S k) * df) (-1) * nth (S k) s 0))
  /\ m0 = df * RS (length s) (fun k => simpson_weight (length s) k * nth k s 0)
  /\ m1 = df * RS (length s) (fun k => simpson_weight (length s) k * (INR k * df * nth k s 0))
  /\ m2 = df * RS (length s) (fun k => simpson_weight (length s) k * ((INR k * df) ^ 2 * nth k s 0))
  /\ (0 <= m0 -> snd (get_Hm0 (Fin (-1)) (Fin (-1)) sp) = Ok (Fin (4 * sqrt m0)))
  /\ (exists t, quotient m_1 m0 t /\ snd (get_Tmm10 (Fin (-1)) (Fin (-1)) sp) = Ok t)
  /\ (exists t, quotient m0 m1 t /\ snd (get_Tm01 (Fin (-1)) (Fin (-1)) sp) = Ok t)
  /\ quotient m0 m2 q /\ root q T /\ snd (get_Tm02 (Fin (-1)) (Fin (-1)) sp) = Ok T.
Proof.
  intros Hd Hn f sp. assert (Hf : freq_axis f) by (unfold f; rewrite freqs_axis; apply axis_freq; auto; lra || lia).
  assert (Lf : length s = length f) by (unfold f; rewrite freqs_length; auto).
  assert (Lo : lower_limit f (Fin (-1)) (Fin (nth 0 f 0))) by (left; auto).
  assert (Hi : upper_limit f (Fin (-1)) (Fin (last_of f))) by (left; auto).
  destruct (C63_getters f s (Fin (-1)) (Fin (-1)) (Fin (last_of f)) (nth 0 f 0) sp eq_refl eq_refl Hf Lf Lo Hi)
    as (m_1 & m0 & m1 & m2 & q & T & E_1 & E0 & E1 & E2 & P0 & _ & P_1 & P1 & P2).
  { exists 0%nat. apply whole_band; [apply good_increasing, Hf|]. rewrite <- Lf. lia. }
  exists m_1, m0, m1, m2, q, T.
  rewrite <- (proj1 (C32_default_limits f s (-1) (Fin (-1)) Hf Lf)) in E_1.
  rewrite <- (proj1 (C32_default_limits f s 0 (Fin (-1)) Hf Lf)) in E0.
  rewrite <- (proj1 (C32_default_limits f s 1 (Fin (-1)) Hf Lf)) in E1.
  rewrite <- (proj1 (C32_default_limits f s 2 (Fin (-1)) Hf Lf)) in E2.
  unfold f in E_1, E0, E1, E2. rewrite freqs_axis in E_1, E0, E1, E2.
  rewrite C69_weights_negative in E_1 by (auto; lia). rewrite C69_weights in E0, E1, E2 by (auto; lia || (right; split; [auto|lia])).
  apply Ok_inj, fin_inj in E_1. apply Ok_inj, fin_inj in E0. apply Ok_inj, fin_inj in E1. apply Ok_inj, fin_inj in E2.
  assert (G : forall k, (k < length s)%nat -> nth k (axis 0 df (length s)) 0 = INR k * df) by (intros; rewrite axis_nth by auto; ring).
  split; [|split; [|split; [|split; [|split; [exact P0|split; [exact P_1|split; [exact P1|exact P2]]]]]]].
  - rewrite <- E_1. f_equal. apply RS_ext. intros k Hk. rewrite G by lia. reflexivity.
  - rewrite <- E0. f_equal. apply RS_ext. intros k Hk. cbn [powerRZ]. ring.
  - rewrite <- E1. f_equal. apply RS_ext. intros k Hk. rewrite G by lia. cbn [powerRZ]. change (Pos.to_nat 1) with 1%nat. ring.
  - rewrite <- E2. f_equal. apply RS_ext. intros k Hk. rewrite G by lia. cbn [powerRZ]. change (Pos.to_nat 2) with 2%nat. ring.
Qed.

(** the variance of the record, bin by bin *)
Lemma record_bins (t0 dt : R) (x : list R) :
  0 < dt -> (4 <= length x)%nat ->
  let t := axis t0 dt (length x) in let df := dfreq t in let s := fine_density t x in let n := length s in
  (3 <= n)%nat /\ (forall k, (k < n)%nat -> 0 <= nth k s 0)
  /\ df * nth 0 s 0 = 2 * Rmean x ^ 2
  /\ (exists E, E = df * RS (n - 1) (fun k => nth (S k) s 0) /\ (Nat.odd (length x) = true -> E = Rvar x)
       /\ (Nat.odd (length x) = false -> E = Rvar x + df * nth (n - 1) s 0 / 2)).
Proof.
  intros Hdt H4 t df s n. assert (Hg : good_axis t) by (apply axis_good; auto; lia). assert (Lt : length x = length t) by (unfold t; rewrite axis_length; auto).
  assert (Hd : 0 < df) by (apply dfreq_pos; auto). assert (Hq := nnyq_le (length x) ltac:(lia)).
  assert (En : n = nnyq (length x)) by (apply fine_length).
  assert (Hx : 0 < INR (length x)) by (apply lt_0_INR; lia).
  assert (G : forall k, (k < n)%nat -> df * nth k s 0 = 2 * sq (coef x k) / (INR (length x) * INR (length x))).
  { intros k Hk. unfold s. rewrite fine_nth by lia. fold df. unfold dens. field. lra. }
  destruct (C25_variance t x _ _ Hg Lt (hv_flat _) (hv_flat _)) as (f' & S' & E & Ho & He & E0).
  rewrite (spectrum_eq t x) in E by (auto using hv_flat).
  rewrite (C24_identity (freqs (dfreq t) (nnyq (length x))) (fine_density t x)) in E;
    [|rewrite freqs_length; lia|rewrite step_freqs by lia; fold df; lra|rewrite freqs_length, fine_length; auto|apply hv_flat|apply hv_flat].
  apply Ok_inj in E. assert (Ef : freqs (dfreq t) (nnyq (length x)) = f') by (apply F_inj; congruence).
  assert (Es : s = S') by (apply F_inj; unfold s; congruence). clear E. subst f' S'.
  split; [|split; [|split]].
  - rewrite En. unfold nnyq. assert (2 <= length x / 2)%nat by (apply Nat.div_le_lower_bound; lia). lia.
  - intros k Hk. apply Rmult_le_reg_l with df; auto. rewrite G by auto. rewrite Rmult_0_r.
    apply Rmult_le_pos; [|left; apply Rinv_0_lt_compat; nra]. unfold sq. nra.
  - rewrite step_freqs in E0 by lia. fold df in E0. lra.
  - exists (energy (freqs df (nnyq (length x))) s). split; [|split].
    + unfold energy. rewrite (Rsum_map_RS _ _ 0), skipn_length, step_freqs by lia. fold n. rewrite <- RS_scal. apply RS_ext.
      intros k Hk. rewrite skipn_nth. cbn [plus]. ring.
    + intros O. apply Ho. apply Nat.odd_spec; auto.
    + intros O. assert (Eh := half_even _ O). rewrite G by lia. unfold df. rewrite He.
      * replace (n - 1)%nat with (length x / 2)%nat by (rewrite En; unfold nnyq; lia). rewrite (coef_half x (length x / 2)) by (auto; lia).
        fold (RS (length x) (fun j => (-1) ^ j * nth j x 0)). unfold sq. cbn [fst snd RtoC]. field. lra.
      * apply Nat.even_spec. rewrite <- Nat.negb_odd, O. reflexivity.
Qed.

Theorem C69_record (t0 dt : R) (x : list R) (at_ ax : arraylike NX) :
  0 < dt -> (4 <= length x)%nat ->
  holds_vector (F (axis t0 dt (length x))) at_ -> holds_vector (F x) ax ->
  exists s sp H, series_init at_ ax = Ok s /\ series_spectrum_raw s (Fin 0) = Ok sp
    /\ snd (get_Hm0 (Fin (-1)) (Fin (-1)) sp) = Ok (Fin H) /\ 0 <= H
    /\ 16 * (1 / 3 * Rvar x + 2 / 3 * Rmean x ^ 2) <= H ^ 2 <= 16 * (4 / 3 * Rvar x + 2 / 3 * Rmean x ^ 2).
Proof.
  intros Hdt H4 Ht Hx. destruct (record_spectrum t0 dt x at_ ax Hdt ltac:(lia) Ht Hx) as (so & E1 & E2).
  destruct (record_bins t0 dt x Hdt H4) as (Hn & Hs & B0 & E & EE & Bo & Be).
  set (t := axis t0 dt (length x)) in *. set (s := fine_density t x) in *.
  assert (Hg : good_axis t) by (apply axis_good; auto; lia). assert (Hd := dfreq_pos t Hg).
  destruct (default_getters (dfreq t) s Hd Hn) as (m_1 & m0 & m1 & m2 & q & T & _ & E0 & _ & _ & P0 & _).
  exists so, (fresh (F (freqs (dfreq t) (nnyq (length x)))) (F s)), (4 * sqrt m0).
  assert (Ln : length s = nnyq (length x)) by apply fine_length. rewrite <- Ln in *.
  set (n := length s) in *. set (df := dfreq t) in *.
  assert (S0 : RS n (fun k => simpson_weight n k * nth k s 0) = 1 / 3 * nth 0 s 0 + RS (n - 1) (fun k => simpson_weight n (S k) * nth (S k) s 0)).
  { replace n with (S (n - 1)) at 1 by lia. rewrite RS_shift, simpson_weight_first by lia. reflexivity. }
  set (W := RS (n - 1) (fun k => simpson_weight n (S k) * nth (S k) s 0)) in *.
  set (Q := RS (n - 1) (fun k => nth (S k) s 0)) in *.
  assert (LW : 1 / 3 * Q <= W).
  { unfold Q, W. rewrite <- RS_scal. apply RS_le. intros k Hk. apply Rmult_le_compat_r; [apply Hs; lia|]. apply simpson_weight_bounds. lia. }
  assert (UW : W <= 4 / 3 * Q - 11 / 12 * nth (n - 1) s 0).
  { unfold Q, W. replace (n - 1)%nat with (S (n - 2)) by lia. rewrite !RS_S. rewrite Rmult_plus_distr_l, <- RS_scal.
    replace (S (n - 2)) with (n - 1)%nat by lia. 
    match goal with |- ?a + ?b <= ?c + ?d - ?e => assert (a <= c) end.
    { apply RS_le. intros k Hk. apply Rmult_le_compat_r; [apply Hs; lia|]. apply simpson_weight_bounds. lia. }
    assert (simpson_weight n (n - 1) * nth (n - 1) s 0 <= 5 / 12 * nth (n - 1) s 0).
    { apply Rmult_le_compat_r; [apply Hs; lia|]. apply simpson_weight_last. lia. }
    lra. }
  assert (L := Hs (n - 1)%nat ltac:(lia)).
  assert (LL : 0 <= df * nth (n - 1) s 0) by (apply Rmult_le_pos; lra).
  assert (M0 : m0 = 1 / 3 * (2 * Rmean x ^ 2) + df * W) by (rewrite E0, S0, <- B0; ring).
  assert (LW' : 1 / 3 * E <= df * W) by (rewrite EE; nra).
  assert (UW' : df * W <= 4 / 3 * E - 11 / 12 * (df * nth (n - 1) s 0)) by (rewrite EE; nra).
  assert (EQ : Rvar x <= E <= Rvar x + df * nth (n - 1) s 0 / 2).
  { destruct (Nat.odd (length x)); [rewrite Bo by auto|rewrite Be by auto]; lra. }
  assert (V : 0 <= E). { rewrite EE. apply Rmult_le_pos; [lra|]. apply RS_nonneg. intros k Hk. apply Hs. lia. }
  assert (M : 0 <= m0) by (rewrite M0; assert (0 <= Rmean x ^ 2) by apply pow2_ge_0; lra).
  split; [auto|split; [auto|split; [apply P0; auto|split]]].
  - assert (A := sqrt_pos m0). lra.
  - replace ((4 * sqrt m0) ^ 2) with (16 * m0) by (replace m0 with (sqrt m0 * sqrt m0) at 1 by (apply sqrt_sqrt; auto); ring).
    rewrite M0. split; [lra|]. destruct (Nat.odd (length x)) eqn:O; [rewrite Bo in * by auto|rewrite Be in UW' by auto]; lra.
Qed.

(** a single sine *)
Definition sine (A p : R) (m n : nat) : list R := map (fun j => A * cos (2 * PI * INR (j * m) / INR n + p)) (seq 0 n).
Lemma RS_single n m g : (m < n)%nat -> (forall k, (k < n)%nat -> k <> m -> g k = 0) -> RS n g = g m.
Proof.
  intros Hm H. replace n with (m + S (n - m - 1))%nat by lia. rewrite RS_add, RS_shift, Nat.add_0_r.
  rewrite (RS_zero m) by (intros; apply H; lia). rewrite (RS_zero (n - m - 1)) by (intros; apply H; lia). ring.
Qed.
Lemma sine_coef A p m n k : (1 <= m)%nat -> (2 * m < n)%nat -> (k <= n / 2)%nat ->
  coef (sine A p m n) k = if Nat.eq_dec k m then (RtoC (A * INR n / 2) * ei p)%C else RtoC 0.
Proof.
  intros H1 H2 Hk. assert (L : length (sine A p m n) = n) by (unfold sine; rewrite map_length, seq_length; auto).
  rewrite coef_DF, L.
  rewrite (DF_ext n _ (fun l => RtoC A * RtoC (cos (2 * PI * INR (l * m) / INR n + p)))%C).
  - assert (E : DF n (fun l => RtoC A * RtoC (cos (2 * PI * INR (l * m) / INR n + p)))%C k
      = (RtoC A * DF n (fun l => RtoC (cos (2 * PI * INR (l * m) / INR n + p))) k)%C).
    { unfold DF. rewrite <- Csum_scal. apply Csum_ext. intros. ring. }
    rewrite E, coef_cos by auto. destruct (Nat.eq_dec k m); [|ring]. rewrite Cmult_assoc, <- RtoC_mult. do 2 f_equal. lra.
  - intros l Hl. rewrite <- RtoC_mult. f_equal. unfold sine. rewrite (nth_indep _ 0 (A * cos (2 * PI * INR (0 * m) / INR n + p))) by (rewrite map_length, seq_length; auto).
    rewrite (map_nth (fun j => A * cos (2 * PI * INR (j * m) / INR n + p))), seq_nth by auto. reflexivity.
Qed.
Lemma sine_bin t0 dt A p m n k : 0 < dt -> (1 <= m)%nat -> (2 * m < n)%nat -> (k <= n / 2)%nat ->
  let t := axis t0 dt n in
  dfreq t * nth k (fine_density t (sine A p m n)) 0 = if Nat.eq_dec k m then A ^ 2 / 2 else 0.
Proof.
  intros Hdt H1 H2 Hk t. assert (L : length (sine A p m n) = n) by (unfold sine; rewrite map_length, seq_length; auto).
  assert (Hg : good_axis t) by (apply axis_good; auto; lia). assert (Hd := dfreq_pos t Hg). assert (Hn : 0 < INR n) by (apply lt_0_INR; lia).
  rewrite fine_nth by (rewrite L; unfold nnyq; lia). rewrite L, sine_coef by auto. destruct (Nat.eq_dec k m).
  - unfold dens, sq, ei. cbn. assert (E := sin2_cos2 p). unfold Rsqr in E. field_simplify; [|lra]. 
    replace (cos p ^ 2) with (1 - sin p ^ 2) by nra. field. lra.
  - unfold dens, sq. cbn [fst snd RtoC]. unfold Rdiv. ring.
Qed.

(** the zero-phase-free facts a user expects of a record holding one sine, and what the object returns: every period getter but one is exact, the
    wave height carries the weight of the bin *)
Theorem C69_sine (t0 dt A p : R) (m n : nat) (at_ ax : arraylike NX) :
  0 < dt -> A <> 0 -> (1 <= m)%nat -> (2 * m < n)%nat -> (4 <= n)%nat ->
  holds_vector (F (axis t0 dt n)) at_ -> holds_vector (F (sine A p m n)) ax ->
  let w := simpson_weight (n / 2 + 1) m in let w' := simpson_weight (n / 2) (m - 1) in
  let T := INR n * dt / INR m in
  Rvar (sine A p m n) = A ^ 2 / 2
  /\ exists s sp, series_init at_ ax = Ok s /\ series_spectrum_raw s (Fin 0) = Ok sp
    /\ snd (get_Hm0 (Fin (-1)) (Fin (-1)) sp) = Ok (Fin (4 * sqrt (w * (A ^ 2 / 2))))
    /\ snd (get_Tp (Fin (-1)) (Fin (-1)) sp) = Ok (Fin T)
    /\ snd (get_Tm01 (Fin (-1)) (Fin (-1)) sp) = Ok (Fin T)
    /\ snd (get_Tm02 (Fin (-1)) (Fin (-1)) sp) = Ok (Fin T)
    /\ snd (get_Tmm10 (Fin (-1)) (Fin (-1)) sp) = Ok (Fin (w' / w * T)).
Proof.
  intros Hdt HA H1 H2 H4 Ht Hx w w' T. set (x := sine A p m n) in *.
  assert (L : length x = n) by (unfold x, sine; rewrite map_length, seq_length; auto).
  assert (Ht' : holds_vector (F (axis t0 dt (length x))) at_) by (rewrite L; auto).
  destruct (record_spectrum t0 dt x at_ ax Hdt ltac:(lia) Ht' Hx) as (so & E1 & E2).
  destruct (record_bins t0 dt x Hdt ltac:(lia)) as (Hn & Hs & B0 & E & EE & Bo & Be).
  rewrite L in *. set (t := axis t0 dt n) in *.
  assert (Hg : good_axis t) by (apply axis_good; auto; lia). assert (Hd := dfreq_pos t Hg).
  assert (G : forall k, (k <= n / 2)%nat -> dfreq t * nth k (fine_density t x) 0 = if Nat.eq_dec k m then A ^ 2 / 2 else 0) by (intros; apply sine_bin; auto).
  set (s := fine_density t x) in *.
  assert (Ln : length s = (n / 2 + 1)%nat) by (unfold s; rewrite fine_length, L; reflexivity).
  change (nnyq n) with (n / 2 + 1)%nat in E2. rewrite <- Ln in E2.
  assert (Q2 : (2 * (n / 2) <= n < 2 * (n / 2) + 2)%nat).
  { assert (X := Nat.div_mod n 2 ltac:(lia)). assert (Y := Nat.mod_upper_bound n 2 ltac:(lia)). lia. }
  assert (Edf : dfreq t = / (INR n * dt)).
  { unfold dfreq, step, t. rewrite axis_length, !axis_nth by lia. f_equal. f_equal. cbn. ring. }
  assert (Hm : 0 < INR m) by (apply lt_0_INR; lia). assert (HN : 0 < INR n) by (apply lt_0_INR; lia).
  assert (HA2 : 0 < A ^ 2 / 2) by (assert (0 < A ^ 2) by (rewrite <- Rsqr_pow2; apply Rsqr_pos_lt; auto); lra).
  assert (Hw : 1 / 3 <= w) by (unfold w; apply simpson_weight_bounds; lia).
  assert (Fm : INR m * dfreq t = / T) by (unfold T; rewrite Edf; field; lra).
  assert (HT : 0 < T) by (unfold T; apply Rdiv_lt_0_compat; nra).
  assert (Sum : forall g, dfreq t * RS (length s) (fun k => g k * nth k s 0) = g m * (A ^ 2 / 2)).
  { intros g. rewrite (RS_single _ m); [|lia|].
    - replace (dfreq t * (g m * nth m s 0)) with (g m * (dfreq t * nth m s 0)) by ring. rewrite G by lia. destruct (Nat.eq_dec m m); [auto|congruence].
    - intros k Hk Hkm. assert (X := G k ltac:(lia)). destruct (Nat.eq_dec k m); [contradiction|].
      replace (nth k s 0) with 0 by (symmetry; nra). ring. }
  assert (Sum' : forall g, dfreq t * RS (length s - 1) (fun k => g k * nth (S k) s 0) = g (m - 1)%nat * (A ^ 2 / 2)).
  { intros g. rewrite (RS_single _ (m - 1)); [|lia|].
    - replace (S (m - 1)) with m by lia. replace (dfreq t * (g (m - 1)%nat * nth m s 0)) with (g (m - 1)%nat * (dfreq t * nth m s 0)) by ring. rewrite G by lia. destruct (Nat.eq_dec m m); [auto|congruence].
    - intros k Hk Hkm. assert (X := G (S k) ltac:(lia)). destruct (Nat.eq_dec (S k) m); [lia|].
      replace (nth (S k) s 0) with 0 by (symmetry; nra). ring. }
  split.
  { assert (E' : E = A ^ 2 / 2).
    { rewrite EE, <- (Rmult_1_l (A ^ 2 / 2)), <- (Sum' (fun _ => 1)). f_equal. apply RS_ext. intros; ring. }
    destruct (Nat.odd n) eqn:O; [rewrite <- Bo; auto|]. specialize (Be eq_refl). rewrite G in Be by lia.
    destruct (Nat.eq_dec (length s - 1) m); [|lra].
    apply half_even in O. lia. }
  exists so, (fresh (F (freqs (dfreq t) (length s))) (F s)). split; [auto|]. split; [auto|].
  destruct (default_getters (dfreq t) s Hd Hn) as (m_1 & m0 & m1 & m2 & q & T' & M_1 & M0 & M1 & M2 & P0 & (t1 & Q1 & P_1) & (t3 & Q3 & P1) & Q4 & RT & P2).
  rewrite Sum in M0. 
  assert (M1' : m1 = w / T * (A ^ 2 / 2)).
  { rewrite M1. unfold w. rewrite <- Ln. rewrite <- (Rmult_1_l (A ^ 2 / 2)).
    rewrite (RS_ext _ _ (fun k => (simpson_weight (length s) k * (INR k * dfreq t)) * nth k s 0)) by (intros; ring). rewrite (Sum (fun k => simpson_weight (length s) k * (INR k * dfreq t))). rewrite Fm. field. lra. }
  assert (M2' : m2 = w / T ^ 2 * (A ^ 2 / 2)).
  { rewrite M2. unfold w. rewrite <- Ln. 
    rewrite (RS_ext _ _ (fun k => (simpson_weight (length s) k * (INR k * dfreq t) ^ 2) * nth k s 0)) by (intros; ring). rewrite (Sum (fun k => simpson_weight (length s) k * (INR k * dfreq t) ^ 2)). rewrite Fm. field. lra. }
  assert (M_1' : m_1 = w' * T * (A ^ 2 / 2)).
  { rewrite M_1. unfold w'. replace (n / 2)%nat with (length s - 1)%nat by lia.
    rewrite (RS_ext _ _ (fun k => (simpson_weight (length s - 1) k * powerRZ (INR (S k) * dfreq t) (-1)) * nth (S k) s 0)) by (intros; ring).
    rewrite (Sum' (fun k => simpson_weight (length s - 1) k * powerRZ (INR (S k) * dfreq t) (-1))). replace (S (m - 1)) with m by lia. rewrite Fm.
    cbn [powerRZ]. change (Pos.to_nat 1) with 1%nat. rewrite pow_1. field. lra. }
  rewrite Ln in M0. fold w in M0.
  split; [|split; [|split; [|split]]].
  - rewrite <- M0. apply P0. rewrite M0. nra.
  - destruct (C35_peak_period (freqs (dfreq t) (length s)) s (Fin (-1)) (Fin (-1)) (Fin (nth 0 (freqs (dfreq t) (length s)) 0)) (Fin (last_of (freqs (dfreq t) (length s))))
      (fresh (F (freqs (dfreq t) (length s))) (F s)) eq_refl eq_refl) as (k & (Hb & Hmax & _) & ->).
    + rewrite freqs_axis. apply axis_good; auto; lia.
    + rewrite freqs_length; auto.
    + left; auto.
    + left; auto.
    + exists 0%nat. apply whole_band; [|rewrite freqs_length; lia]. rewrite freqs_axis. apply good_increasing, axis_good; auto; lia.
    + assert (Hk : (k < length s)%nat) by (destruct Hb as [Hb _]; rewrite freqs_length in Hb; auto).
      assert (X : nth m s 0 <= nth k s 0). { apply Hmax.
        apply whole_band; [|rewrite freqs_length; lia]. rewrite freqs_axis. apply good_increasing, axis_good; auto; lia. }
      assert (Y := G k ltac:(lia)). assert (Z := G m ltac:(lia)). destruct (Nat.eq_dec m m); [|congruence].
      destruct (Nat.eq_dec k m) as [->|]; [|nra].
      rewrite freqs_axis, axis_nth by lia. rewrite Rplus_0_l, Fm. unfold recip.
      assert (0 < / T) by (apply Rinv_0_lt_compat; auto).
      destruct (Req_EM_T (/ T) 0); [lra|]. do 2 f_equal. field. lra.
  - rewrite P1. f_equal. destruct Q3 as [Q3 _]. rewrite Q3.
    + f_equal. rewrite M0, M1'. field. lra.
    + rewrite M1'. apply Rgt_not_eq. apply Rmult_lt_0_compat; auto. apply Rdiv_lt_0_compat; lra.
  - rewrite P2. f_equal. destruct Q4 as [Q4 _]. rewrite Q4 in RT.
    + cbn in RT. destruct RT as [RT _]. replace (m0 / m2) with (T * T) in RT by (rewrite M0, M2'; field; lra).
      rewrite RT by nra. f_equal. apply sqrt_square. lra.
    + rewrite M2'. apply Rgt_not_eq. apply Rmult_lt_0_compat; auto. apply Rdiv_lt_0_compat; nra.
  - rewrite P_1. f_equal. destruct Q1 as [Q1 _]. rewrite Q1.
    + f_equal. rewrite M0, M_1'. field. lra.
    + rewrite M0. nra.
Qed.

(** Hm0 of a record is not four standard deviations, and Tm-1,0 of a sine is not its period *)
Theorem C69_four_sigma_refuted :
  ~ (forall (t0 dt : R) (x : list R) s sp H, 0 < dt -> (4 <= length x)%nat -> Rmean x = 0 ->
       series_init (Arr (vec (F (axis t0 dt (length x))))) (Arr (vec (F x))) = Ok s ->
       series_spectrum_raw s (Fin 0) = Ok sp -> snd (get_Hm0 (Fin (-1)) (Fin (-1)) sp) = Ok (Fin H) -> H = 4 * sqrt (Rvar x)).
Proof.
  intros C. assert (Hdt : 0 < 1) by lra.
  destruct (C69_sine 0 1 2 0 1 8 (Arr (vec (F (axis 0 1 8)))) (Arr (vec (F (sine 2 0 1 8)))) ltac:(lra) ltac:(lra) ltac:(lia) ltac:(lia) ltac:(lia) (hv_flat _) (hv_flat _))
    as (V & s & sp & E1 & E2 & E3 & _).
  assert (M : Rmean (sine 2 0 1 8) = 0).
  { unfold Rmean. replace (Rsum (sine 2 0 1 8)) with 0; [unfold Rdiv; ring|]. symmetry.
    assert (Z := coef_0 (sine 2 0 1 8)). rewrite (sine_coef 2 0 1 8 0) in Z; try lia. destruct (Nat.eq_dec 0 1); [lia|].
    apply (f_equal fst) in Z. cbn [fst RtoC] in Z. congruence. }
  specialize (C 0 1 (sine 2 0 1 8) s sp _ Hdt ltac:(cbn [length sine map seq]; lia) M E1 E2 E3).
  rewrite V in C. replace (8 / 2 + 1)%nat with 5%nat in C by reflexivity. replace (simpson_weight 5 1) with (4 / 3) in C by reflexivity.
  assert (X : sqrt (4 / 3 * (2 ^ 2 / 2)) = sqrt (2 ^ 2 / 2)) by lra. apply sqrt_inj in X; lra.
Qed.
Theorem C69_Tmm10_of_sine_refuted :
  ~ (forall (t0 dt A p : R) (m n : nat) s sp, 0 < dt -> A <> 0 -> (1 <= m)%nat -> (2 * m < n)%nat -> (4 <= n)%nat ->
       series_init (Arr (vec (F (axis t0 dt n)))) (Arr (vec (F (sine A p m n)))) = Ok s ->
       series_spectrum_raw s (Fin 0) = Ok sp -> snd (get_Tmm10 (Fin (-1)) (Fin (-1)) sp) = Ok (Fin (INR n * dt / INR m))).
Proof.
  intros C.
  destruct (C69_sine 0 1 2 0 3 16 (Arr (vec (F (axis 0 1 16)))) (Arr (vec (F (sine 2 0 3 16)))) ltac:(lra) ltac:(lra) ltac:(lia) ltac:(lia) ltac:(lia) (hv_flat _) (hv_flat _))
    as (V & s & sp & E1 & E2 & _ & _ & _ & _ & E3).
  rewrite (C 0 1 2 0 3%nat 16%nat s sp) in E3; auto; try lra; try lia.
  apply Ok_inj, fin_inj in E3. replace (simpson_weight (16 / 2) (3 - 1)) with (2 / 3) in E3 by reflexivity. replace (simpson_weight (16 / 2 + 1) 3) with (4 / 3) in E3 by reflexivity.
  cbn in E3. lra.
Qed.
Example C69_witness : (4 <= length (sine 2 0 3 16))%nat /\ (2 * 3 < 16)%nat /\ simpson_weight 9 3 = 4 / 3 /\ simpson_weight 9 4 = 2 / 3 /\ simpson_weight 8 7 = 5 / 12.
Proof. split; [cbn [length sine map seq]; lia|]. split; [lia|]. repeat split; reflexivity. Qed.
