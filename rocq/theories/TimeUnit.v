(** * Change of time unit: C73 *)

From Coq Require Import Reals ZArith String List Bool Lra Lia Permutation.
From Coquelicot Require Import Coquelicot.
From Verif Require Import Num XR Spec XRFacts RSum Engine EngineProps FourierSpec TimeModel TimeSpec TimeProps TimeProps2 TimeProps3
  SpectralModel WaveModel SpectrumModel SeriesModel SeriesProps WHProps WHStats WaveSym DFT FourierFacts FourierProps AvgProps DensityProps SpecSym
  BandProps SimpsonFacts MomentProps PeakProps ParamProps GetterProps UnitProps HeightProps.
Import ListNotations.
Open Scope R_scope.

(** ** C73 Change of time unit *)

(** the same wave with times in a unit c times smaller *)
Definition stretched (c : R) (w : wave NX) : wave NX :=
  mkWave (N:=NX) (w_h w) (nmul (n:=NX) (Fin c) (w_t w)) (w_crest w) (w_trough w)
    (nmul (n:=NX) (Fin c) (w_tcrest w)) (nmul (n:=NX) (Fin c) (w_ttrough w)).

(** number of waves and heights do not depend on the unit of time; periods and instants are multiplied by c *)
Theorem C73_waves (t0 dt : R) (x : list R) (s : string) (d : direction) (c : R) :
  names s d -> 0 < dt -> (2 <= length x)%nat -> 0 < c ->
  exists n ws, waves_of t0 dt x s n ws /\ waves_of (c * t0) (c * dt) x s n (map (stretched c) ws).
Proof.
  intros Hn Hdt H2 Hc. assert (Hdt' : 0 < c * dt) by nra.
  destruct (crossing_facts t0 dt x s d Hn Hdt H2) as (n & tau & E & S1).
  destruct (crossing_facts (c * t0) (c * dt) x s d Hn Hdt' H2) as (n' & tau' & E' & S2).
  destruct (zero_crossing_F (axis t0 dt (length x)) x s d Hn (axis_length _ _ _) H2) as (is & A1 & G1).
  destruct (zero_crossing_F (axis (c * t0) (c * dt) (length x)) x s d Hn (axis_length _ _ _) H2) as (is' & A2 & G2).
  assert (is' = is) as -> by (apply (all_crossings_unique d x); auto).
  cbn zeta in G1, G2. assert (E0 := E). assert (E0' := E').
  rewrite G1 in E. rewrite G2 in E'. apply Ok_inj in E, E'. injection E as <- Ea. injection E' as <- Eb.
  set (T1 := map _ is) in Ea. set (T2 := map _ is) in Eb.
  assert (T1 = tau) as X1 by (apply F_inj; apply (f_equal (@data NX)) in Ea; destruct T1, tau; exact Ea).
  assert (T2 = tau') as X2 by (apply F_inj; apply (f_equal (@data NX)) in Eb; destruct T2, tau'; exact Eb).
  assert (An : forall l, (l < length x)%nat -> nth l (axis (c * t0) (c * dt) (length x)) 0 = c * nth l (axis t0 dt (length x)) 0).
  { intros l Hl. rewrite !axis_nth by auto. ring. }
  assert (Et : tau' = map (Rmult c) tau).
  { rewrite <- X1, <- X2. unfold T1, T2. rewrite map_map. apply map_ext_in. intros i Hi. apply A1 in Hi.
    assert (Hne := Rcrosses_ne _ _ _ Hi). destruct Hi as [Hi _]. rewrite !An by lia. field. lra. }
  rewrite Et in S2, E0'.
  assert (Inc : increasing (axis t0 dt (length x))) by (apply axis_increasing; auto).
  assert (Inc' : increasing (axis (c * t0) (c * dt) (length x))) by (apply axis_increasing; auto).
  destruct (waves_transport (axis t0 dt (length x)) x tau (axis (c * t0) (c * dt) (length x)) x (map (Rmult c) tau) (stretched c))
    as (ws & E1 & E2); auto using axis_ne; try (rewrite ?map_length, ?axis_length; reflexivity).
  - intros k w Hk (cr & tr & tc & tt & -> & (i & Hi & Hab & -> & -> & M & M1) & (j & Hj & Hab' & -> & -> & M' & M1')).
    rewrite axis_length in Hi, Hj. rewrite !nth_map_R by lia.
    exists (nth i x 0), (nth j x 0), (c * nth i (axis t0 dt (length x)) 0), (c * nth j (axis t0 dt (length x)) 0).
    split. { unfold stretched; cbn [w_h w_t w_crest w_trough w_tcrest w_ttrough]. rewrite !fin_mul, Rmult_minus_distr_l. reflexivity. }
    split; [exists i|exists j]; (split; [rewrite axis_length; auto|]); rewrite An by auto;
      (split; [split; apply Rmult_le_compat_l; lra|]); (split; [reflexivity|]);
      (split; [reflexivity|]); split; intros l Hl Hlab;
      try (rewrite axis_length in Hl); rewrite An in Hlab by lia; destruct Hlab as [P Q];
      apply Rmult_le_reg_l in P; auto; apply Rmult_le_reg_l in Q; auto.
    + apply M; [rewrite axis_length; auto|lra].
    + apply M'; [rewrite axis_length; auto|lra].
  - exists (Z.of_nat (length is - 1)), ws. split; [exists (crossing_array tau); split; [exact E0|exact E1]|].
    exists (crossing_array (map (Rmult c) tau)). split; [exact E0'|exact E2].
Qed.

Lemma averaging_times c f df r : 0 < c -> (2 <= length f)%nat -> averaging_factor f df r -> averaging_factor (times (/ c) f) (df / c) r.
Proof.
  intros Hc Hl [[-> ->]|[E (z & Hz & Hr)]].
  - left. split; auto. unfold Rdiv. ring.
  - right. split. { intros X. apply E. apply (f_equal (Rmult c)) in X. field_simplify in X; lra. }
    exists z. split; auto. unfold step. rewrite !times_nth. fold (step f) in *.
    replace (df / c / (/ c * nth 1 f 0 - / c * nth 0 f 0)) with (df / step f); auto.
    unfold step. destruct (Req_dec (nth 1 f 0 - nth 0 f 0) 0) as [Z|Z].
    + replace (/ c * nth 1 f 0 - / c * nth 0 f 0) with (/ c * (nth 1 f 0 - nth 0 f 0)) by ring. rewrite Z, Rmult_0_r. unfold Rdiv.
      rewrite Rinv_0. ring.
    + assert (/ c * nth 1 f 0 - / c * nth 0 f 0 <> 0).
      { replace (/ c * nth 1 f 0 - / c * nth 0 f 0) with (/ c * (nth 1 f 0 - nth 0 f 0)) by ring. apply Rmult_integral_contrapositive_currified; auto. apply Rinv_neq_0_compat; lra. }
      field. repeat split; lra.
Qed.

(** the density spectrum: frequencies are divided by c, densities multiplied by c, band averaging acts on the same bins *)
Theorem C73_spectrum (c : R) (t x : list R) (df : R) (at_ at' ax : arraylike NX) :
  0 < c -> good_axis t -> good_axis (times c t) -> length x = length t ->
  holds_vector (F t) at_ -> holds_vector (F (times c t)) at' -> holds_vector (F x) ax ->
  exists f S, compute_spectrum_time_series at_ ax (Fin df) = Ok (F f, F S)
    /\ compute_spectrum_time_series at' ax (Fin (df / c)) = Ok (F (times (/ c) f), F (times c S)).
Proof.
  intros Hc Hg Hg' Hl Ht Ht' Hx. assert (H2 := proj1 Hg).
  assert (Est : step (times c t) = c * step t) by (unfold step; rewrite !times_nth; ring). assert (Hs := good_step t Hg).
  destruct (C58_density t x df at_ ax Hg Hl Ht Hx) as (r & f & S & A & Hr & E & L1 & L2 & V).
  destruct (C58_density (times c t) x (df / c) at' ax Hg' ltac:(rewrite times_length; auto) Ht' Hx) as (r' & f' & S' & A' & Hr' & E' & L1' & L2' & V').
  rewrite Est in *. set (m := (length x / 2 + 1)%nat) in *.
  assert (Hn : 0 < INR (length x)) by (apply lt_0_INR; lia).
  set (d0 := / (INR (length x) * step t)) in *.
  assert (Ed : / (INR (length x) * (c * step t)) = d0 / c) by (unfold d0; field; lra).
  rewrite Ed in *.
  assert (Ef : freqs (d0 / c) m = times (/ c) (freqs d0 m)).
  { unfold freqs, times. rewrite map_map. apply map_ext. intros k. unfold Rdiv. ring. }
  assert (Hm : (2 <= m)%nat). { unfold m. assert (1 <= length x / 2)%nat by (apply Nat.div_le_lower_bound; lia). lia. }
  assert (r' = r) as ->.
  { eapply averaging_unique; [exact A'|]. rewrite Ef. apply averaging_times; auto. rewrite freqs_length; auto. }
  exists f, S. split; auto. rewrite E'. do 3 f_equal.
  - apply (nth_ext' _ _ 0); [rewrite times_length; lia|]. intros i Hi. rewrite L1' in Hi.
    rewrite times_nth, (proj1 (V i Hi)), (proj1 (V' i Hi)), <- Rmean_scale, map_map. f_equal. apply map_ext. intros j. unfold Rdiv. ring.
  - apply (nth_ext' _ _ 0); [rewrite times_length; lia|]. intros i Hi. rewrite L2' in Hi.
    rewrite times_nth, (proj2 (V i Hi)), (proj2 (V' i Hi)), <- Rmean_scale, map_map. f_equal. apply map_ext. intros j.
    unfold periodogram. field. lra.
Qed.

Lemma quotient_times c a b q q' : 0 < c -> quotient a b q -> quotient (c * a) b q' -> q' = xtimes c q.
Proof.
  intros Hc [Q1 Q2] [P1 P2]. destruct (Req_dec b 0) as [Z|Z].
  - destruct (Q2 Z) as (Qa & Qb & Qc), (P2 Z) as (Pa & Pb & Pc).
    destruct (Rtotal_order a 0) as [H|[H|H]].
    + rewrite Qb, Pb; auto. nra.
    + rewrite Qc, Pc; auto. subst. ring.
    + rewrite Qa, Pa; auto. nra.
  - rewrite Q1, P1 by auto. cbn. f_equal. field. auto.
Qed.
Lemma quotient_over c a b q q' : 0 < c -> quotient a b q -> quotient a (b / c) q' -> q' = xtimes c q.
Proof.
  intros Hc Q P. apply (quotient_times c a b); auto. destruct (Req_dec b 0) as [Z|Z].
  - subst b. replace (0 / c) with 0 in P by (unfold Rdiv; ring). destruct P as [P1 P2]. split; [lra|]. intros _. destruct (P2 eq_refl) as (A & B & C).
    split; [|split]; intros H; [apply A|apply B|apply C]; nra.
  - assert (b / c <> 0). { intros X. apply Z. apply (f_equal (Rmult c)) in X. field_simplify in X; lra. }
    split; [|lra]. intros _. rewrite (proj1 P) by auto. f_equal. field. lra.
Qed.
Lemma root_times c v v' q q' : 0 < c -> v' = xtimes (c ^ 2) v -> root v q -> root v' q' -> q' = xtimes c q.
Proof.
  intros Hc -> H H'. destruct v as [r| | |]; cbn in H, H'; subst; auto.
  destruct H as [A B], H' as [A' B']. assert (0 < c * (c * 1)) by (apply Rmult_lt_0_compat; lra). destruct (Rle_lt_dec 0 r) as [Hr|Hr].
  - rewrite A by auto. rewrite A' by (apply Rmult_le_pos; lra). cbn. f_equal. replace (c * (c * 1) * r) with (c ^ 2 * r) by ring.
    rewrite sqrt_mult_alt by nra. rewrite sqrt_pow2 by lra. reflexivity.
  - rewrite B, B' by (auto; nra). reflexivity.
Qed.

(** the record in the new unit has the same significant wave height, and mean periods that are c times larger *)
Theorem C73_parameters (c t0 dt : R) (x : list R) (at_ at' ax : arraylike NX) :
  0 < c -> 0 < dt -> (4 <= length x)%nat ->
  holds_vector (F (axis t0 dt (length x))) at_ -> holds_vector (F (axis (c * t0) (c * dt) (length x))) at' -> holds_vector (F x) ax ->
  exists s sp s' sp' H,
       series_init at_ ax = Ok s /\ series_spectrum_raw s (Fin 0) = Ok sp
    /\ series_init at' ax = Ok s' /\ series_spectrum_raw s' (Fin 0) = Ok sp'
    /\ snd (get_Hm0 (Fin (-1)) (Fin (-1)) sp) = Ok (Fin H) /\ snd (get_Hm0 (Fin (-1)) (Fin (-1)) sp') = Ok (Fin H)
    /\ (exists T, snd (get_Tmm10 (Fin (-1)) (Fin (-1)) sp) = Ok T /\ snd (get_Tmm10 (Fin (-1)) (Fin (-1)) sp') = Ok (xtimes c T))
    /\ (exists T, snd (get_Tm01 (Fin (-1)) (Fin (-1)) sp) = Ok T /\ snd (get_Tm01 (Fin (-1)) (Fin (-1)) sp') = Ok (xtimes c T))
    /\ (exists T, snd (get_Tm02 (Fin (-1)) (Fin (-1)) sp) = Ok T /\ snd (get_Tm02 (Fin (-1)) (Fin (-1)) sp') = Ok (xtimes c T)).
Proof.
  intros Hc Hdt H4 Ht Ht' Hx. assert (Hdt' : 0 < c * dt) by nra.
  destruct (record_spectrum t0 dt x at_ ax Hdt ltac:(lia) Ht Hx) as (so & E1 & E2).
  destruct (record_spectrum (c * t0) (c * dt) x at' ax Hdt' ltac:(lia) Ht' Hx) as (so' & E1' & E2').
  set (t := axis t0 dt (length x)) in *. set (t' := axis (c * t0) (c * dt) (length x)) in *.
  assert (Hg : good_axis t) by (apply axis_good; auto; lia). assert (Hg' : good_axis t') by (apply axis_good; auto; lia).
  assert (Hd := dfreq_pos t Hg). assert (Hd' := dfreq_pos t' Hg').
  assert (Hn : 0 < INR (length x)) by (apply lt_0_INR; lia).
  assert (Sx : step t = dt) by (unfold step, t; rewrite !axis_nth by lia; change (INR 1) with 1; change (INR 0) with 0; ring).
  assert (Sx' : step t' = c * dt) by (unfold step, t'; rewrite !axis_nth by lia; change (INR 1) with 1; change (INR 0) with 0; ring).
  assert (Ed : dfreq t' = dfreq t / c).
  { unfold dfreq. rewrite Sx, Sx'. unfold t, t'. rewrite !axis_length. field. lra. }
  set (s := fine_density t x) in *. set (s' := fine_density t' x) in *.
  assert (Ls : length s = nnyq (length x)) by apply fine_length. assert (Ls' : length s' = nnyq (length x)) by apply fine_length.
  assert (H3 : (3 <= nnyq (length x))%nat).
  { unfold nnyq. assert (2 <= length x / 2)%nat by (apply Nat.div_le_lower_bound; lia). lia. }
  assert (Ns : forall k, nth k s' 0 = c * nth k s 0).
  { intros k. destruct (Nat.lt_ge_cases k (nnyq (length x))) as [Hk|Hk].
    - unfold s, s'. rewrite !fine_nth by auto. rewrite Ed. unfold dens. field. lra.
    - rewrite !nth_overflow by lia. ring. }
  destruct (default_getters (dfreq t) s Hd ltac:(lia)) as (m_1 & m0 & m1 & m2 & q & T & D_1 & D0 & D1 & D2 & G0 & (T_1 & Q_1 & G_1) & (T1 & Q1 & G1) & Q2 & RT & G2).
  destruct (default_getters (dfreq t') s' Hd' ltac:(lia)) as (m_1' & m0' & m1' & m2' & q' & T' & D_1' & D0' & D1' & D2' & G0' & (T_1' & Q_1' & G_1') & (T1' & Q1' & G1') & Q2' & RT' & G2').
  rewrite Ls in *. rewrite Ls' in *.
  assert (Sc : forall (n : nat) (g h : nat -> R) (a : R), (forall k, (k < n)%nat -> h k = a * g k) -> RS n h = a * RS n g).
  { intros n g h a H. rewrite <- RS_scal. apply RS_ext. auto. }
  assert (M0 : m0' = m0).
  { rewrite D0, D0', Ed. rewrite (Sc _ (fun k => simpson_weight (nnyq (length x)) k * nth k s 0) _ c); [field; lra|].
    intros k _. rewrite Ns. ring. }
  assert (M1 : m1' = m1 / c).
  { rewrite D1, D1', Ed. rewrite (Sc _ (fun k => simpson_weight (nnyq (length x)) k * (INR k * dfreq t * nth k s 0)) _ 1); [field; lra|].
    intros k _. rewrite Ns. field. lra. }
  assert (M2 : m2' = m2 / c ^ 2).
  { rewrite D2, D2', Ed. rewrite (Sc _ (fun k => simpson_weight (nnyq (length x)) k * ((INR k * dfreq t) ^ 2 * nth k s 0)) _ (/ c)); [field; lra|].
    intros k _. rewrite Ns. field. lra. }
  assert (M_1 : m_1' = c * m_1).
  { rewrite D_1, D_1', Ed. rewrite (Sc _ (fun k => simpson_weight (nnyq (length x) - 1) k * (powerRZ (INR (S k) * dfreq t) (-1) * nth (S k) s 0)) _ (c ^ 2)); [field; lra|].
    intros k _. rewrite Ns. assert (PZ : forall z, powerRZ z (-1) = / z) by (intros z; unfold powerRZ; change (Pos.to_nat 1) with 1%nat; rewrite pow_1; reflexivity). rewrite !PZ. assert (0 < INR (S k)) by (apply lt_0_INR; lia).
    field. repeat split; lra. }
  assert (P0 : 0 <= m0).
  { destruct (record_bins t0 dt x Hdt H4) as (_ & Hs & _). cbn zeta in Hs. fold t in Hs. fold s in Hs. rewrite Ls in Hs. rewrite D0. apply Rmult_le_pos; [lra|].
    apply RS_nonneg. intros k Hk. apply Rmult_le_pos; [assert (B := simpson_weight_bounds (nnyq (length x)) k ltac:(lia)); lra|]. apply Hs; auto. }
  rewrite M0 in *.
  exists so, (fresh (F (freqs (dfreq t) (nnyq (length x)))) (F s)), so', (fresh (F (freqs (dfreq t') (nnyq (length x)))) (F s')), (4 * sqrt m0).
  split; [exact E1|]. split; [exact E2|]. split; [exact E1'|]. split; [exact E2'|]. split; [exact (G0 P0)|]. split; [exact (G0' P0)|].
  split; [|split].
  - exists T_1. split; [exact G_1|]. rewrite G_1'. f_equal. apply (quotient_times c m_1 m0); auto. rewrite <- M_1. exact Q_1'.
  - exists T1. split; [exact G1|]. rewrite G1'. f_equal. apply (quotient_over c m0 m1); auto. rewrite <- M1. exact Q1'.
  - exists T. split; [exact G2|]. rewrite G2'. f_equal. apply (root_times c q q'); auto. apply (quotient_over (c ^ 2) m0 m2); auto; [nra|].
    rewrite <- M2. exact Q2'.
Qed.

(** the checks on the axis themselves do depend on the unit, when the steps are not exactly equal: the uniform-axis
    check of the Fourier routines has an absolute tolerance, and the constructor of a Series compares a variance of
    the steps with a hundredth of their mean *)
Theorem C73_uniformity_check_refuted :
  ~ (forall (c : R) (t : list R), 0 < c -> (2 <= length t)%nat ->
       monotonic_increasing_constant_step (F (times c t)) = monotonic_increasing_constant_step (F t)).
Proof.
  intros H. specialize (H 1000 [0; 1; 2 + 1 / 10000000000] ltac:(lra) ltac:(cbn; lia)).
  destruct (C02_accepts_iff [0; 1; 2 + 1 / 10000000000] ltac:(cbn; lia)) as (b & E & Hb).
  destruct (C02_accepts_iff (times 1000 [0; 1; 2 + 1 / 10000000000]) ltac:(cbn; lia)) as (b' & E' & Hb').
  rewrite E, E' in H. apply Ok_inj in H. subst b'.
  assert (B : b = true).
  { apply Hb. intros i Hi. cbn [length] in Hi. destruct i as [|[|i]]; [| |lia]; cbn [nth]; lra. }
  destruct (proj1 Hb' B 1%nat ltac:(cbn; lia)) as [_ Q]. cbn [times map nth] in Q. lra.
Qed.
Theorem C73_series_check_refuted :
  ~ (forall (c : R) (t x : list R) s, 0 < c -> length x = length t ->
       series_init (Arr (vec (F t))) (Arr (vec (F x))) = Ok s -> exists s', series_init (Arr (vec (F (times c t)))) (Arr (vec (F x))) = Ok s').
Proof.
  intros H.
  assert (E : exists s, series_init (Arr (vec (F [0; 1; 2.1]))) (Arr (vec (F [1; 1; 1]))) = Ok s).
  { unfold series_init. rewrite !vec_convert. cbn [fst]. rewrite !F_length. cbn [length Nat.eqb negb]. rewrite as_list_vec, bind_Ok, ndiff_F.
    change (Rdiff [0; 1; 2.1]) with [1 - 0; 2.1 - 1].
    rewrite nvar_F by discriminate.
    rewrite (F_map (fun d => d / 100)) by (intros; rewrite fin_ofZ, fin_div by lra; reflexivity).
    rewrite nmean_F by discriminate. rewrite fin_ltb.
    rewrite Rltb_true; [|unfold Rvar, Rmean, Rsum; cbn; lra]. cbn [negb].
    rewrite as_list_vec, bind_Ok.
    unfold individual_waves, series_crossings. rewrite fin_0, fin_eqb, Reqb_true by auto. cbn [negb].
    rewrite bind_Ok, <- fin_0, map_sub0.
    destruct (zero_crossing_F [0; 1; 2.1] [1; 1; 1] "down" Down eq_refl eq_refl ltac:(cbn; lia)) as (is & Hc & Ez).
    assert (is = []).
    { destruct is as [|i is]; auto. exfalso. destruct Hc as [_ Hc]. destruct (proj1 (Hc i) (or_introl eq_refl)) as (L & P & Q).
      destruct i as [|[|i]]; cbn in *; try lra; lia. }
    subst is. cbn zeta in Ez. cbn [map length] in Ez.
    change (vec (F [0; 1; 2.1])) with (vec (A:=NX) (F [0; 1; 2.1])).
    rewrite Ez, bind_Ok. cbn. eauto. }
  destruct E as (s & E). destruct (H 1000 [0; 1; 2.1] [1; 1; 1] s ltac:(lra) eq_refl E) as (s' & E').
  rewrite C16_axis_check in E'; [discriminate|cbn; lia|reflexivity|].
  cbn [times map]. change (Rdiff [1000 * 0; 1000 * 1; 1000 * 2.1]) with [1000 * 1 - 1000 * 0; 1000 * 2.1 - 1000 * 1].
  unfold Rvar, Rmean, Rsum; cbn. lra.
Qed.

Example C73_witness : 0 < 60 /\ good_axis (axis 0 (1/2) 5) /\ good_axis (times 60 (axis 0 (1/2) 5)) /\ names "down" Down
  /\ (4 <= length ([1; -1; 2; -3; 1]%R))%nat.
Proof.
  split; [lra|]. split; [apply axis_good; [lia|lra]|]. split; [|split; [reflexivity|cbn; lia]].
  assert (times 60 (axis 0 (1/2) 5) = axis 0 30 5) as ->; [|apply axis_good; [lia|lra]].
  unfold times, axis. rewrite map_map. apply map_ext. intros; lra.
Qed.
