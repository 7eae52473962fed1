(** * The density spectrum of a signal: value and symmetries: C58 *)

From Coq Require Import Reals ZArith List Bool Lra Lia.
From Coquelicot Require Import Complex.
From Verif Require Import Num XR Spec XRFacts Engine Cpx DFT RSum FourierSpec EngineProps SpectralModel TimeProps
  TimeProps2 SeriesProps FourierFacts FourierProps AvgProps DensityProps SeriesProps2.
Import ListNotations.
Open Scope R_scope.

(** one-sided variance density of a signal with time step dt at the k-th Fourier frequency:
    2 dt / n times the squared modulus of the k-th Fourier coefficient *)
Definition periodogram (dt : R) (x : list R) (k : nat) : R := 2 * dt / INR (length x) * Cmod (coef x k) ^ 2.

Lemma sq_Cmod z : sq z = Cmod z ^ 2.
Proof. unfold sq, Cmod. rewrite pow2_sqrt; [ring|]. assert (0 <= fst z ^ 2) by apply pow2_ge_0. assert (0 <= snd z ^ 2) by apply pow2_ge_0. lra. Qed.
Lemma dens_periodogram t x k : good_axis t -> length x = length t -> dens (dfreq t) (length x) (coef x k) = periodogram (step t) x k.
Proof.
  intros Hg Hl. assert (H2 := proj1 Hg). assert (S := good_step t Hg). unfold dens, dfreq, periodogram. rewrite sq_Cmod, <- Hl.
  assert (0 < INR (length x)) by (apply lt_0_INR; lia). field. lra.
Qed.
Lemma averaging_unique f df r r' : averaging_factor f df r -> averaging_factor f df r' -> r = r'.
Proof.
  intros [[E ->]|[E (z & Hz & Er)]] [[E' ->]|[E' (z' & Hz' & Er')]]; auto; try contradiction.
  rewrite (rounds_unique _ _ _ Hz Hz') in Er. lia.
Qed.

(** the value of every bin of the (averaged) spectrum *)
Theorem C58_density (t x : list R) (df : R) (at_ ax : arraylike NX) :
  good_axis t -> length x = length t -> holds_vector (F t) at_ -> holds_vector (F x) ax ->
  let df0 := / (INR (length x) * step t) in
  let m := (length x / 2 + 1)%nat in
  exists r f S, averaging_factor (freqs df0 m) df r /\ (1 <= r)%nat
    /\ compute_spectrum_time_series at_ ax (Fin df) = Ok (F f, F S)
    /\ length f = (m / r)%nat /\ length S = (m / r)%nat
    /\ forall i, (i < m / r)%nat ->
         nth i f 0 = Rmean (map (fun j => INR (i * r + j) * df0) (seq 0 r))
         /\ nth i S 0 = Rmean (map (fun j => periodogram (step t) x (i * r + j)) (seq 0 r)).
Proof.
  intros Hg Hl Ht Hx df0 m. assert (H2 := proj1 Hg). assert (Hq := nnyq_le (length x) ltac:(lia)).
  assert (Hd := dfreq_pos t Hg). rewrite (spectrum_eq t x) by auto.
  assert (Ed : dfreq t = df0) by (unfold dfreq, df0; rewrite Hl; reflexivity). change (nnyq (length x)) with m in *.
  destruct (C24_blocks (freqs (dfreq t) m) (fine_density t x) df _ _
              ltac:(rewrite freqs_length; lia) ltac:(rewrite step_freqs by lia; lra)
              ltac:(rewrite freqs_length, fine_length; reflexivity) (hv_flat _) (hv_flat _))
    as (r & fc & sc & Ha & Hr & E & L1 & L2 & V).
  rewrite freqs_length in *. rewrite Ed in *. exists r, fc, sc. repeat (split; [assumption|]).
  intros i Hi. destruct (V i Hi) as [V1 V2]. rewrite V1, V2. unfold block_mean.
  assert (B : forall j, In j (seq 0 r) -> (i * r + j < m)%nat).
  { intros j Hj. apply in_seq in Hj. assert (m / r * r <= m)%nat by (rewrite Nat.mul_comm; apply Nat.mul_div_le; lia). nia. }
  split; f_equal; apply map_ext_in; intros j Hj; specialize (B j Hj).
  - rewrite freqs_nth by auto. reflexivity.
  - rewrite fine_nth by exact B. apply dens_periodogram; auto.
Qed.
Example C58_witness : good_axis (axis 0 (1/2) 8) /\ averaging_factor (freqs (/ (INR 8 * (1/2))) 5) (1/2) 2.
Proof.
  split; [apply axis_good; [lia|lra]|]. right. split; [lra|]. exists 2%Z. split; [|reflexivity].
  rewrite step_freqs by lia. unfold rounds_to. replace (1 / 2 / / (INR 8 * (1 / 2))) with 2 by (cbn; field).
  change (IZR 2) with 2. rewrite Rminus_diag_eq, Rabs_R0 by reflexivity. split; lra.
Qed.

(** two signals on the same axis whose periodograms are related bin by bin *)
Lemma spectrum_rel (t x y : list R) (df : R) (at_ ax ay : arraylike NX) :
  good_axis t -> length x = length t -> length y = length t ->
  holds_vector (F t) at_ -> holds_vector (F x) ax -> holds_vector (F y) ay ->
  exists r f S S', compute_spectrum_time_series at_ ax (Fin df) = Ok (F f, F S)
    /\ compute_spectrum_time_series at_ ay (Fin df) = Ok (F f, F S')
    /\ (1 <= r)%nat /\ length S = ((length x / 2 + 1) / r)%nat /\ length S' = length S
    /\ forall i, (i < length S)%nat ->
         nth i S 0 = Rmean (map (fun j => periodogram (step t) x (i * r + j)) (seq 0 r))
         /\ nth i S' 0 = Rmean (map (fun j => periodogram (step t) y (i * r + j)) (seq 0 r))
         /\ (i * r + (r - 1) < length x / 2 + 1)%nat.
Proof.
  intros Hg Hl Hl' Ht Hx Hy.
  destruct (C58_density t x df at_ ax Hg Hl Ht Hx) as (r & f & S & A & Hr & E & L1 & L2 & V).
  destruct (C58_density t y df at_ ay Hg Hl' Ht Hy) as (r' & f' & S' & A' & Hr' & E' & L1' & L2' & V').
  rewrite Hl', <- Hl in A', L1', L2', V'. assert (r' = r) as -> by (eapply averaging_unique; eauto).
  assert (f' = f) as ->.
  { apply (nth_ext' _ _ 0); [congruence|]. intros i Hi. rewrite L1' in Hi. rewrite (proj1 (V i Hi)), (proj1 (V' i Hi)). reflexivity. }
  exists r, f, S, S'. split; [auto|]. split; [auto|]. split; [auto|]. split; [auto|]. split; [congruence|].
  intros i Hi. rewrite L2 in Hi. split; [apply V; auto|]. split; [apply V'; auto|].
  assert ((length x / 2 + 1) / r * r <= length x / 2 + 1)%nat by (rewrite Nat.mul_comm; apply Nat.mul_div_le; lia). nia.
Qed.

(** scaling the signal by c scales the density by c^2; the frequencies stay *)
Theorem C58_scaling (t x : list R) (c df : R) (at_ ax ay : arraylike NX) :
  good_axis t -> length x = length t -> holds_vector (F t) at_ -> holds_vector (F x) ax ->
  holds_vector (F (map (Rmult c) x)) ay ->
  exists f S, compute_spectrum_time_series at_ ax (Fin df) = Ok (F f, F S)
    /\ compute_spectrum_time_series at_ ay (Fin df) = Ok (F f, F (map (Rmult (c ^ 2)) S)).
Proof.
  intros Hg Hl Ht Hx Hy. assert (H2 := proj1 Hg).
  destruct (spectrum_rel t x (map (Rmult c) x) df at_ ax ay) as (r & f & S & S' & E & E' & Hr & L & L' & V); auto.
  { rewrite map_length; auto. }
  exists f, S. split; [exact E|]. rewrite E'. do 3 f_equal.
  apply (nth_ext' _ _ 0); [rewrite map_length; auto|]. intros i Hi. rewrite L' in Hi. destruct (V i Hi) as (V1 & V2 & B).
  rewrite V2. rewrite (nth_indep _ 0 (c ^ 2 * 0)) by (rewrite map_length; auto). rewrite (map_nth (Rmult (c ^ 2))), V1.
  rewrite <- Rmean_scale, map_map. f_equal. apply map_ext_in. intros j Hj. apply in_seq in Hj.
  unfold periodogram. rewrite map_length. rewrite <- !sq_Cmod.
  assert (Hk : (i * r + j < length x)%nat). { assert (Nat.div (length x) 2 < length x)%nat by (apply Nat.div_lt; lia). lia. }
  rewrite (map_ext (Rmult c) (fun v => c * v + 0)) by (intros; ring). rewrite coef_affine by auto.
  replace (if Nat.eqb (i * r + j) 0 then RtoC (INR (length x) * 0) else RtoC 0) with (RtoC 0)
    by (destruct (Nat.eqb _ 0); [rewrite Rmult_0_r|]; reflexivity).
  unfold sq. cbn. ring.
Qed.

(** a constant offset changes no bin but the first *)
Theorem C58_offset (t x : list R) (c df : R) (at_ ax ay : arraylike NX) :
  good_axis t -> length x = length t -> holds_vector (F t) at_ -> holds_vector (F x) ax ->
  holds_vector (F (map (Rplus c) x)) ay ->
  exists f S S', compute_spectrum_time_series at_ ax (Fin df) = Ok (F f, F S)
    /\ compute_spectrum_time_series at_ ay (Fin df) = Ok (F f, F S')
    /\ length S' = length S /\ forall i, (1 <= i)%nat -> nth i S' 0 = nth i S 0.
Proof.
  intros Hg Hl Ht Hx Hy. assert (H2 := proj1 Hg).
  destruct (spectrum_rel t x (map (Rplus c) x) df at_ ax ay) as (r & f & S & S' & E & E' & Hr & L & L' & V); auto.
  { rewrite map_length; auto. }
  exists f, S, S'. split; [exact E|]. split; [exact E'|]. split; [exact L'|]. intros i Hi.
  destruct (Nat.lt_ge_cases i (length S)) as [Hs|Hs]; [|rewrite !nth_overflow by lia; reflexivity].
  destruct (V i Hs) as (V1 & V2 & B). rewrite V1, V2. f_equal. apply map_ext_in. intros j Hj. apply in_seq in Hj.
  unfold periodogram. rewrite map_length.
  assert (Hk : (i * r + j < length x)%nat). { assert (Nat.div (length x) 2 < length x)%nat by (apply Nat.div_lt; lia). lia. }
  rewrite (map_ext (Rplus c) (fun v => 1 * v + c)) by (intros; ring). rewrite coef_affine by auto.
  destruct (Nat.eqb_spec (i * r + j) 0); [nia|].
  f_equal. f_equal. f_equal. ring.
Qed.

(** playing a signal backwards, or rotating it, does not change its spectrum *)
Lemma spectrum_same (t x y : list R) (df : R) (at_ ax ay : arraylike NX) :
  good_axis t -> length x = length t -> length y = length t ->
  holds_vector (F t) at_ -> holds_vector (F x) ax -> holds_vector (F y) ay ->
  (forall k, Cmod (coef y k) = Cmod (coef x k)) ->
  compute_spectrum_time_series at_ ay (Fin df) = compute_spectrum_time_series at_ ax (Fin df).
Proof.
  intros Hg Hl Hl' Ht Hx Hy M.
  destruct (spectrum_rel t x y df at_ ax ay) as (r & f & S & S' & E & E' & Hr & L & L' & V); auto.
  rewrite E, E'. do 3 f_equal. apply (nth_ext' _ _ 0); [exact L'|]. intros i Hi. rewrite L' in Hi.
  destruct (V i Hi) as (V1 & V2 & _). rewrite V1, V2. f_equal. apply map_ext_in. intros j Hj.
  unfold periodogram. rewrite M, Hl', Hl. reflexivity.
Qed.
Lemma Cmod_ei a : Cmod (ei a) = 1.
Proof. unfold Cmod, ei. cbn [fst snd]. rewrite <- sqrt_1. f_equal. assert (E := sin2_cos2 a). unfold Rsqr in E. cbn [pow]. lra. Qed.
Lemma Cmod_tw s n j k : Cmod (tw s n j k) = 1.
Proof. apply Cmod_ei. Qed.
Lemma Cmod_conj z : Cmod (Cconj z) = Cmod z.
Proof. unfold Cmod, Cconj. cbn [fst snd]. f_equal. ring. Qed.

Theorem C58_reversal (t x : list R) (df : R) (at_ ax ay : arraylike NX) :
  good_axis t -> length x = length t -> holds_vector (F t) at_ -> holds_vector (F x) ax -> holds_vector (F (rev x)) ay ->
  compute_spectrum_time_series at_ ay (Fin df) = compute_spectrum_time_series at_ ax (Fin df).
Proof.
  intros Hg Hl Ht Hx Hy. assert (H2 := proj1 Hg). apply (spectrum_same t x (rev x)); auto; [rewrite rev_length; auto|].
  intros k. rewrite coef_rev by lia. rewrite Cmod_mult, Cmod_tw, Cmod_conj. ring.
Qed.
Lemma coef_rot1 a l k : coef (l ++ [a]) k = (tw 1 (S (length l)) 1 k * coef (a :: l) k)%C.
Proof.
  assert (Hn : INR (S (length l)) <> 0) by (apply not_0_INR; lia).
  unfold coef. rewrite app_length. cbn [length]. replace (length l + 1)%nat with (S (length l)) by lia.
  rewrite Csum_S, Csum_shift, app_nth2, Nat.sub_diag by lia. cbn [nth].
  rewrite Cmult_plus_distr_l, <- Csum_scal, Cplus_comm. f_equal.
  - unfold tw. rewrite Nat.mul_0_l. change (INR 0) with 0. replace (- (2 * PI * 0 / INR (S (length l)))) with 0 by (unfold Rdiv; ring).
    rewrite ei_0.
    replace (- (2 * PI * INR (length l * k) / INR (S (length l)))) with (1 * 2 * PI * INR (1 * k) / INR (S (length l)) + - (2 * PI * INR k)).
    + rewrite ei_plus, ei_opp, ei_period. replace (Cconj (RtoC 1)) with (RtoC 1) by (apply C_eq; cbn; ring). ring.
    + rewrite !mult_INR. change (INR 1) with 1. rewrite S_INR in *. field. exact Hn.
  - apply Csum_ext. intros j Hj. rewrite app_nth1 by auto. unfold tw.
    replace (- (2 * PI * INR (j * k) / INR (S (length l))))
      with (1 * 2 * PI * INR (1 * k) / INR (S (length l)) + - (2 * PI * INR (S j * k) / INR (S (length l)))).
    + rewrite ei_plus. ring.
    + rewrite !mult_INR, (S_INR j). change (INR 1) with 1. field. exact Hn.
Qed.
Lemma Cmod_rot x m k : Cmod (coef (skipn m x ++ firstn m x) k) = Cmod (coef x k).
Proof.
  revert x. induction m; intros x; [cbn; rewrite app_nil_r; reflexivity|].
  destruct x as [|a l]; [reflexivity|]. cbn [skipn firstn].
  destruct (Nat.le_gt_cases m (length l)) as [Hm|Hm].
  - assert (E : Cmod (coef (skipn m (l ++ [a]) ++ firstn m (l ++ [a])) k) = Cmod (coef (l ++ [a]) k)) by apply IHm.
    rewrite coef_rot1, Cmod_mult, Cmod_tw, Rmult_1_l in E. rewrite <- E.
    rewrite skipn_app, firstn_app. replace (m - length l)%nat with 0%nat by lia. cbn [skipn firstn]. rewrite app_nil_r, <- app_assoc. reflexivity.
  - rewrite skipn_all2, firstn_all2 by lia. reflexivity.
Qed.
Theorem C58_rotation (t x : list R) (m : nat) (df : R) (at_ ax ay : arraylike NX) :
  good_axis t -> length x = length t -> holds_vector (F t) at_ -> holds_vector (F x) ax ->
  holds_vector (F (skipn m x ++ firstn m x)) ay ->
  compute_spectrum_time_series at_ ay (Fin df) = compute_spectrum_time_series at_ ax (Fin df).
Proof.
  intros Hg Hl Ht Hx Hy. apply (spectrum_same t x (skipn m x ++ firstn m x)); auto.
  - rewrite app_length, skipn_length, firstn_length. lia.
  - intros k. apply Cmod_rot.
Qed.

(** the time origin does not matter *)
Theorem C58_time_origin (t x : list R) (c df : R) (at_ at' ax : arraylike NX) :
  good_axis t -> length x = length t -> holds_vector (F t) at_ -> holds_vector (F (map (Rplus c) t)) at' -> holds_vector (F x) ax ->
  compute_spectrum_time_series at' ax (Fin df) = compute_spectrum_time_series at_ ax (Fin df).
Proof.
  intros Hg Hl Ht Ht' Hx. assert (H2 := proj1 Hg).
  assert (N : forall i, (i < length t)%nat -> nth i (map (Rplus c) t) 0 = c + nth i t 0).
  { intros i Hi. rewrite (nth_indep _ 0 (c + 0)) by (rewrite map_length; auto). apply map_nth. }
  assert (Hg' : good_axis (map (Rplus c) t)).
  { split; [rewrite map_length; auto|]. rewrite map_length. intros i Hi. rewrite !N by lia.
    destruct (proj2 Hg i Hi). lra. }
  rewrite (spectrum_eq t x (Fin df) at_ ax) by auto.
  rewrite (spectrum_eq (map (Rplus c) t) x (Fin df) at' ax); [|exact Hg'|rewrite map_length; exact Hl|exact Ht'|exact Hx].
  assert (E : dfreq (map (Rplus c) t) = dfreq t).
  { unfold dfreq, step. rewrite map_length, !N by lia. do 2 f_equal. lra. }
  unfold fine_density. rewrite E. reflexivity.
Qed.

(** slowing a signal down by a factor c divides the frequencies by c and multiplies the density by c *)
Theorem C58_time_scale (t0 dt c df : R) (x : list R) :
  (2 <= length x)%nat -> 0 < dt -> 0 < c ->
  exists f S, compute_spectrum_time_series (Arr (vec (F (axis t0 dt (length x))))) (Arr (vec (F x))) (Fin df) = Ok (F f, F S)
    /\ compute_spectrum_time_series (Arr (vec (F (axis t0 (c * dt) (length x))))) (Arr (vec (F x))) (Fin (df / c))
       = Ok (F (map (fun v => v / c) f), F (map (Rmult c) S)).
Proof.
  intros H2 Hd Hc. assert (Hcd : 0 < c * dt) by nra.
  assert (Hg := axis_good t0 dt (length x) H2 Hd). assert (Hg' := axis_good t0 (c * dt) (length x) H2 Hcd).
  assert (St : step (axis t0 dt (length x)) = dt) by (unfold step; rewrite !axis_nth by lia; cbn; ring).
  assert (St' : step (axis t0 (c * dt) (length x)) = c * dt) by (unfold step; rewrite !axis_nth by lia; cbn; ring).
  assert (Hn : 0 < INR (length x)) by (apply lt_0_INR; lia).
  destruct (C58_density _ x df _ _ Hg ltac:(rewrite axis_length; auto) (hv_flat _) (hv_flat _)) as (r & f & S & A & Hr & E & L1 & L2 & V).
  destruct (C58_density _ x (df / c) _ _ Hg' ltac:(rewrite axis_length; auto) (hv_flat _) (hv_flat _)) as (r' & f' & S' & A' & Hr' & E' & L1' & L2' & V').
  rewrite St in *. rewrite St' in *.
  assert (Hm : (2 <= length x / 2 + 1)%nat) by (apply (proj1 (nnyq_le (length x) H2))).
  assert (r' = r) as ->.
  { apply (averaging_unique (freqs (/ (INR (length x) * dt)) (length x / 2 + 1)) df); auto.
    unfold averaging_factor in *. rewrite step_freqs in * by auto.
    destruct A' as [[Z ->]|[Z (z & Hz & Er)]]; [left|right].
    - split; auto. apply Rmult_eq_reg_r with (/ c); [unfold Rdiv in Z; lra|]. apply Rinv_neq_0_compat. lra.
    - split; [intros ->; apply Z; unfold Rdiv; ring|]. exists z. split; auto.
      replace (df / / (INR (length x) * dt)) with (df / c / / (INR (length x) * (c * dt))); auto. field. lra. }
  exists f, S. split; [exact E|]. rewrite E'.
  assert (f' = map (fun v => v / c) f) as ->; [|assert (S' = map (Rmult c) S) as ->; [|reflexivity]].
  - apply (nth_ext' _ _ 0); [rewrite map_length; congruence|]. intros i Hi. rewrite L1' in Hi.
    rewrite (nth_indep (map _ f) 0 ((fun v => v / c) 0)) by (rewrite map_length; congruence). rewrite (map_nth (fun v => v / c)).
    rewrite (proj1 (V i Hi)), (proj1 (V' i Hi)). match goal with |- _ = ?m / c => replace (m / c) with (/ c * m) by (field; lra) end. rewrite <- Rmean_scale, map_map. f_equal.
    apply map_ext. intros j. field. lra.
  - apply (nth_ext' _ _ 0); [rewrite map_length; congruence|]. intros i Hi. rewrite L2' in Hi.
    rewrite (nth_indep (map _ S) 0 (c * 0)) by (rewrite map_length; congruence). rewrite (map_nth (Rmult c)).
    rewrite (proj2 (V i Hi)), (proj2 (V' i Hi)). rewrite <- Rmean_scale, map_map. f_equal.
    apply map_ext. intros j. unfold periodogram. field. lra.
Qed.
