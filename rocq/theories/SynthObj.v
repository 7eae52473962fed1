(** * Objects made by synthesis and filtering (Spectrum.create_series, Series.get_bandpassfilter): C74 *)

From Coq Require Import Reals ZArith String List Bool Lra Lia.
From Coquelicot Require Import Complex.
From Verif Require Import Num XR Spec XRFacts RSum Engine Cpx DFT EngineProps FourierSpec TimeModel TimeSpec TimeProps TimeProps2 TimeProps3
  SpectralModel WaveModel SpectrumModel SeriesModel SeriesProps FourierFacts FourierProps AvgProps DensityProps BandProps SynthProps SeriesProps2
  SimpsonFacts MomentProps PeakProps ParamProps GetterProps HistProps HeightProps.
Import ListNotations.
Open Scope R_scope.

(** ** C74 Synthesised and filtered series objects *)

Section Synth.
  Variable RT : Type.
  Variable rng_seed : Z -> RT.
  Variable rng_rand : RT -> nat -> list NX * RT.
  Notation create_series := (spectrum_create_series RT rng_seed rng_rand).
  Notation make_series := (spectrum2timeseries_object RT rng_seed rng_rand).

  (** a Spectrum object, whatever getters were called before, yields a Series on the requested axis whose signal is the
      random-phase sum; the generator is not reseeded *)
  Theorem C74_create_series (f D : list R) (af as_ : arraylike NX) :
    good_axis f -> length D = length f -> (forall y, In y D -> 0 <= y) -> holds_vector (F f) af -> holds_vector (F D) as_ ->
    exists sp0, spectrum_init af as_ = Ok sp0
    /\ forall (history : list (spec_call NX)) rs tstart tend dt n u rs',
      0 < dt -> tstart <= tend -> ceil_is ((tend - tstart) / dt + 1) n -> (2 <= n)%nat ->
      let m := ((n + 1) / 2)%nat in
      let df := / (INR (2 * m) * dt) in
      rng_rand rs m = (F u, rs') -> length u = m ->
      exists s x sg ws tc,
        create_series rs (spec_run history sp0) (Fin tstart) (Fin tend) (Fin dt) = Ok (s, rs')
        /\ se_t s = F (axis tstart dt n) /\ se_x s = F x /\ se_nt s = n /\ se_dt s = Fin dt
        /\ length x = n /\ length sg = m
        /\ (forall k, (k < m)%nat -> interpolates f D (INR (k + 1) * df) (nth k sg 0))
        /\ (forall j, (j < n)%nat ->
             nth j x 0 = Rsum (map (fun k => (if Nat.eqb k (m - 1) then 1 / 2 else 1) * sqrt (2 * nth k sg 0 * df)
                                             * cos (2 * PI * (INR (k + 1) * df) * (INR j * dt) + 2 * PI * nth k u 0)) (seq 0 m)))
        /\ determine_zero_crossing (Arr (vec (F (axis tstart dt n)))) (Arr (vec (F x))) "down" = Ok (Z.of_nat (length ws), tc)
        /\ determine_params_individual_waves (Arr tc) (Arr (vec (F (axis tstart dt n)))) (Arr (vec (F x))) = Ok ws
        /\ stored_waves (se_wh s) ws.
  Proof.
    intros Hg Hl Hp Hf HD. assert (H2 := proj1 Hg).
    assert (ND : D <> []) by (intros ->; cbn in Hl; lia). assert (Nf : f <> []) by (intros ->; cbn in H2; lia).
    exists (fresh (N:=NX) (F f) (F D)). split; [apply (C63_object f D); auto|].
    intros history rs tstart tend dt n u rs' Hdt Ht Hn Hn2 m df Hr Hu.
    destruct (run_keeps history (fresh (N:=NX) (F f) (F D))) as [Kf KS].
    unfold spectrum_create_series, spectrum2timeseries_object. rewrite Kf, KS. cbn [s_f s_S fresh].
    destruct (C30_synthesis RT rng_seed rng_rand rs f D tstart tend dt (-1) (Arr (vec (F f))) n u rs') as (x & sg & E & Lx & Ls & I & V);
      auto using good_increasing, hv_flat; [lia|]. cbn zeta in E.
    destruct (C16_uniform_accepted tstart dt x (Arr (vec (F (axis tstart dt (length x))))) (Arr (vec (F x))) Hdt ltac:(lia) (hv_flat _) (hv_flat _))
      as (s & tc & ws & Es & Et & Ex & En & Ed & Z & W & St & _).
    rewrite Lx in *. exists s, x, sg, ws, tc.
    split. { etransitivity; [apply (f_equal (fun r => bind r _)); exact E|]. cbn [bind]. rewrite Es. reflexivity. }
    do 6 (split; [assumption|]). split; [exact I|]. split; [|auto].
    intros j Hj. rewrite (V j Hj), axis_nth by auto. f_equal. apply map_ext. intros k.
    replace (tstart + INR j * dt - tstart) with (INR j * dt) by ring. reflexivity.
  Qed.

  (** one sample is not a Series *)
  Theorem C74_single_sample (f D : list R) history rs tstart tend dt u rs' :
    good_axis f -> length D = length f -> (forall y, In y D -> 0 <= y) ->
    0 < dt -> tstart <= tend -> ceil_is ((tend - tstart) / dt + 1) 1 -> rng_rand rs 1 = (F [u], rs') ->
    create_series rs (spec_run history (fresh (N:=NX) (F f) (F D))) (Fin tstart) (Fin tend) (Fin dt) = Raise AssertionError.
  Proof.
    intros Hg Hl Hp Hdt Ht Hn Hr. assert (H2 := proj1 Hg). assert (Nf : f <> []) by (intros ->; cbn in H2; lia).
    destruct (run_keeps history (fresh (N:=NX) (F f) (F D))) as [Kf KS].
    unfold spectrum_create_series, spectrum2timeseries_object. rewrite Kf, KS. cbn [s_f s_S fresh].
    destruct (C30_synthesis RT rng_seed rng_rand rs f D tstart tend dt (-1) (Arr (vec (F f))) 1 [u] rs') as (x & sg & E & Lx & _);
      auto using good_increasing, hv_flat; [lia|]. cbn zeta in E.
    etransitivity; [apply (f_equal (fun r => bind r _)); exact E|]. cbn [bind].
    rewrite C16_single_sample_rejected; [reflexivity|rewrite F_length, axis_length; lia|rewrite !F_length, axis_length; auto].
  Qed.

  (** with a seed the series does not depend on earlier use of the generator *)
  Theorem C74_seed_decides rs1 rs2 (af as_ : arraylike NX) (tInit tEnd dt : NX) seed : (0 <= seed)%Z ->
    make_series rs1 af as_ tInit tEnd dt seed = make_series rs2 af as_ tInit tEnd dt seed.
  Proof. intros H. unfold spectrum2timeseries_object. rewrite (C30_seed_decides RT rng_seed rng_rand rs1 rs2) by auto. reflexivity. Qed.

  (** the raw spectrum of a created series of even length is the spectrum it was made from: at every frequency below Nyquist the
      interpolated density; and the variance of the signal is the sum of the band energies *)
  Theorem C74_recovers_spectrum (f D : list R) history rs tstart tend dt m u rs' :
    good_axis f -> length D = length f -> (forall y, In y D -> 0 <= y) ->
    0 < dt -> tstart <= tend -> (2 <= m)%nat -> ceil_is ((tend - tstart) / dt + 1) (2 * m) -> rng_rand rs m = (F u, rs') -> length u = m ->
    let df := / (INR (2 * m) * dt) in
    exists s x sp fr dens sN,
      create_series rs (spec_run history (fresh (N:=NX) (F f) (F D))) (Fin tstart) (Fin tend) (Fin dt) = Ok (s, rs')
      /\ se_x s = F x /\ length x = (2 * m)%nat /\ Rmean x = 0
      /\ series_spectrum_raw s (Fin 0) = Ok sp /\ s_f sp = F fr /\ s_S sp = F dens /\ length fr = (m + 1)%nat /\ length dens = (m + 1)%nat
      /\ (forall k, (k <= m)%nat -> nth k fr 0 = INR k * df)
      /\ (forall k, (1 <= k < m)%nat -> interpolates f D (INR k * df) (nth k dens 0))
      /\ interpolates f D (INR m * df) sN
      /\ Rvar x = df * (Rsum (map (fun k => nth k dens 0) (seq 1 (m - 1))) + sN * cos (2 * PI * nth (m - 1) u 0) ^ 2 / 2).
  Proof.
    intros Hg Hl Hp Hdt Ht Hm Hn Hr Hu df. assert (H2 := proj1 Hg). assert (Nf : f <> []) by (intros ->; cbn in H2; lia).
    destruct (run_keeps history (fresh (N:=NX) (F f) (F D))) as [Kf KS].
    unfold spectrum_create_series, spectrum2timeseries_object. rewrite Kf, KS. cbn [s_f s_S fresh].
    assert (E2 : (2 * m / 2 = m)%nat) by (rewrite Nat.mul_comm; apply Nat.div_mul; lia).
    assert (E3 : ((2 * m + 1) / 2 = m)%nat) by (rewrite (Nat.mul_comm 2), Nat.div_add_l by lia; cbn; lia).
    destruct (C54_analysis_returns_spectrum RT rng_seed rng_rand rs f D tstart tend dt (-1) (Arr (vec (F f))) (2 * m) u rs')
      as (t & x & fr & dens & E & Es & Lf & Ld & M0 & Vf & Vd & sN & I & VN); auto using good_increasing, hv_flat; try lia; try (rewrite E2; auto; fail).
    { exists m; lia. }
    destruct (C30_synthesis RT rng_seed rng_rand rs f D tstart tend dt (-1) (Arr (vec (F f))) (2 * m) u rs') as (x' & sg & E' & Lx & _);
      auto using good_increasing, hv_flat; [lia|rewrite E3; auto|rewrite E3; auto|].
    rewrite E in E'. apply Ok_inj in E'. injection E' as Et Ex. apply F_inj in Et, Ex. subst x'.
    assert (Et' : t = axis tstart dt (length x)) by (rewrite Lx; exact Et). clear Et. subst t.
    destruct (record_spectrum tstart dt x (Arr (vec (F (axis tstart dt (length x))))) (Arr (vec (F x))) Hdt ltac:(lia) (hv_flat _) (hv_flat _))
      as (s & Ei & Er).
    destruct (C16_uniform_accepted tstart dt x (Arr (vec (F (axis tstart dt (length x))))) (Arr (vec (F x))) Hdt ltac:(lia) (hv_flat _) (hv_flat _))
      as (s' & tc & ws & Es' & _ & Ex' & _). rewrite Ei in Es'. apply Ok_inj in Es'. subst s'.
    destruct (record_bins tstart dt x Hdt ltac:(lia)) as (_ & _ & _ & B). cbn zeta in B.
    set (t := axis tstart dt (length x)) in *. assert (Hgt : good_axis t) by (apply axis_good; auto; lia).
    assert (Lt : length x = length t) by (unfold t; rewrite axis_length; auto).
    assert (Q : nnyq (length x) = (m + 1)%nat) by (unfold nnyq; rewrite Lx, E2; auto).
    assert (Eq : compute_spectrum_time_series (Arr (vec (F t))) (Arr (vec (F x))) (Fin 0) = Ok (F (freqs (dfreq t) (m + 1)), F (fine_density t x))).
    { rewrite (spectrum_eq t x) by (auto using hv_flat). rewrite Q. apply C24_identity; auto using hv_flat.
      - rewrite freqs_length. lia.
      - rewrite step_freqs by lia. assert (H := dfreq_pos t Hgt). lra.
      - rewrite fine_length, freqs_length. auto. }
    rewrite Es in Eq. apply Ok_inj in Eq. injection Eq as Ef Ed. apply F_inj in Ef, Ed.
    exists s, x, (fresh (N:=NX) (F fr) (F dens)), fr, dens, sN.
    split. { etransitivity; [apply (f_equal (fun r => bind r _)); exact E|]. cbn [bind]. rewrite Ei. reflexivity. }
    split; [exact Ex'|]. split; [exact Lx|]. split; [exact M0|].
    split. { rewrite Er, Q, Ef, Ed. reflexivity. }
    split; [reflexivity|]. split; [reflexivity|]. rewrite E2 in *. split; [exact Lf|]. split; [exact Ld|].
    assert (Vf' : forall k, (k <= m)%nat -> nth k fr 0 = INR k * df) by (intros k Hk; rewrite Vf by auto; unfold df, Rdiv; reflexivity).
    split; [exact Vf'|].
    split. { intros k Hk. rewrite <- Vf' by lia. apply Vd; auto. }
    split. { rewrite <- Vf' by lia. exact I. }
    destruct B as (En & EE & _ & Be). rewrite <- Ed, Ld in *. rewrite Lx in *.
    replace (Nat.odd (2 * m)) with false in Be by (symmetry; rewrite <- Nat.negb_even, Nat.even_mul; reflexivity).
    specialize (Be eq_refl). replace (m + 1 - 1)%nat with m in * by lia.
    assert (Edf : dfreq t = df).
    { assert (A := Vf' 1%nat ltac:(lia)). rewrite Ef, freqs_nth in A by lia. change (INR 1) with 1 in A. lra. }
    rewrite Edf in *. rewrite VN in *.
    assert (Sp : RS m (fun k => nth (S k) dens 0) = RS (m - 1) (fun k => nth (S k) dens 0) + sN * cos (2 * PI * nth (m - 1) u 0) ^ 2).
    { assert (P : RS (S (m - 1)) (fun k => nth (S k) dens 0) = RS (m - 1) (fun k => nth (S k) dens 0) + nth (S (m - 1)) dens 0) by apply RS_S.
      replace (S (m - 1)) with m in P by lia. rewrite P, VN. reflexivity. }
    assert (Sr : Rsum (map (fun k => nth k dens 0) (seq 1 (m - 1))) = RS (m - 1) (fun k => nth (S k) dens 0)).
    { rewrite <- seq_shift, map_map. rewrite (Rsum_map_RS _ _ 0%nat), seq_length. apply RS_ext. intros k Hk. rewrite seq_nth by auto. reflexivity. }
    rewrite Sr. rewrite Sp in EE. lra.
  Qed.
End Synth.

(** get_bandpassfilter on a Series object with a uniform time axis, after any history: a Series on the same axis, holding the
    signal with the coefficients outside the band removed; filtering the result again returns an identical object *)
Theorem C74_bandpass (argsort : list NX -> list nat) (t0 dt : R) (x : list R) (at_ ax : arraylike NX) (flow fhigh : xr) :
  0 < dt -> (2 <= length x)%nat -> flow <> NaN -> fhigh <> NaN ->
  let t := axis t0 dt (length x) in
  holds_vector (F t) at_ -> holds_vector (F x) ax ->
  exists s s' y, series_init at_ ax = Ok s
    /\ (forall history, series_bandpass (series_run argsort history s) flow fhigh = Ok s')
    /\ (forall history, series_bandpass (series_run argsort history s') flow fhigh = Ok s')
    /\ se_t s' = F t /\ se_x s' = F y /\ se_nt s' = length x /\ se_dt s' = Fin dt /\ length y = length x
    /\ Rmean y = 0 /\ Rsum (map (fun v => v ^ 2) y) <= Rsum (map (fun v => v ^ 2) x)
    /\ forall k, (k < length x)%nat ->
         (passed (freqs (/ (INR (length x) * dt)) (length x / 2 + 1)) flow fhigh (Nat.min k (length x - k)) -> coef y k = coef x k)
         /\ (~ passed (freqs (/ (INR (length x) * dt)) (length x / 2 + 1)) flow fhigh (Nat.min k (length x - k)) -> coef y k = RtoC 0).
Proof.
  intros Hdt H2 N1 N2 t Ht Hx. assert (Hg : good_axis t) by (apply axis_good; auto).
  assert (Lt : length x = length t) by (unfold t; rewrite axis_length; auto).
  assert (Ed : dfreq t = / (INR (length x) * dt)).
  { unfold dfreq. rewrite <- Lt. do 2 f_equal. unfold step, t. rewrite !axis_nth by lia. change (INR 1) with 1. change (INR 0) with 0. ring. }
  destruct (C16_uniform_accepted t0 dt x at_ ax Hdt H2 Ht Hx) as (s & tc & ws & Es & Et & Ex & _).
  destruct (C29_coefficients t x flow fhigh (Arr (vec (F t))) (Arr (vec (F x)))) as (y & Ey & Ly & Hc); auto using hv_flat.
  destruct (C29_idempotent t x flow fhigh (Arr (vec (F t))) (Arr (vec (F x)))) as (y' & Ey' & Ei); auto using hv_flat.
  destruct (C29_zero_mean t x flow fhigh (Arr (vec (F t))) (Arr (vec (F x)))) as (y1 & Ey1 & M); auto using hv_flat.
  destruct (C29_energy t x flow fhigh (Arr (vec (F t))) (Arr (vec (F x)))) as (y2 & Ey2 & En); auto using hv_flat.
  rewrite Ey in Ey', Ey1, Ey2. apply Ok_inj, F_inj in Ey', Ey1, Ey2. subst y' y1 y2.
  assert (Hty : F t = F (axis t0 dt (length y))) by (unfold t; rewrite Ly; reflexivity).
  destruct (C16_uniform_accepted t0 dt y (Arr (vec (F t))) (Arr (vec (F y))) Hdt ltac:(lia)) as (s' & tc' & ws' & Es' & Et' & Ex' & En' & Ed' & _);
    [rewrite Hty; apply hv_flat|apply hv_flat|].
  rewrite <- Hty in Et'. exists s, s', y. split; [exact Es|].
  split. { intros h. destruct (C53_signal_untouched argsort h s) as (A1 & A2 & _). unfold series_bandpass. rewrite A1, A2, Et, Ex.
    fold t. rewrite Ey. exact Es'. }
  split. { intros h. destruct (C53_signal_untouched argsort h s') as (A1 & A2 & _). unfold series_bandpass. rewrite A1, A2, Et', Ex'.
    rewrite Ei. exact Es'. }
  split; [exact Et'|]. split; [exact Ex'|]. split; [rewrite En'; exact Ly|]. split; [exact Ed'|]. split; [exact Ly|]. split; [exact M|].
  split; [exact En|]. rewrite Ed in Hc. exact Hc.
Qed.

Example C74_witness : good_axis [0; 1/10; 2/10] /\ length [0; 3; 1] = length [0; 1/10; 2/10] /\ (forall y, In y [0; 3; 1] -> 0 <= y)
  /\ ceil_is ((30 - 0) / 10 + 1) (2 * 2) /\ passed (freqs (/ (INR 4 * (1/2))) (4 / 2 + 1)) (Fin (1/4)) PInf 1
  /\ ~ passed (freqs (/ (INR 4 * (1/2))) (4 / 2 + 1)) (Fin (3/4)) PInf 1.
Proof.
  split. { split; [cbn; lia|]. intros i Hi. cbn [length] in Hi. destruct i as [|[|i]]; [| |lia]; cbn [nth]; lra. }
  split; [reflexivity|]. split. { intros y [<-|[<-|[<-|[]]]]; lra. }
  split. { unfold ceil_is. cbn. lra. }
  split.
  - unfold passed. split; [lia|]. split; [cbn; lra|]. split; [cbn; lra|]. left. cbn. exact I.
  - intros (_ & H & _). cbn in H. lra.
Qed.
